(** C84: the repository's own tests, transcribed. *)
From Coq Require Import Permutation.
From Verif Require Import Base Spec Varint Buffers Rle Observe Sink PrimEnc BinEnc ObserveEnc Io SpecIo Reader Metadata Segment SpecSegment
  BuffersProofs PropsVarint PropsRle PropsBuffers PropsBoolClear PropsIo IoReadProofs IoStreamProofs PropsIoBatch PropsIoBatchOk PropsNames PropsSegment.
Open Scope nat_scope.

(** [assert!(b)] *)
Definition check (b : bool) : outcome unit := if b then Ret tt else Panic PAssert.

(** [assert_eq!(m, b)] where evaluating [m] may panic. *)
Definition check_is (m : outcome bool) (b : bool) : outcome unit := let* x := m in check (Bool.eqb x b).

(** [unwrap()] *)
Definition unwrap {A} (r : result A) : outcome A := match r with Ok a => Ret a | Err => Panic PExpect end.

(** [for (actual, expected) in a.iter().zip(b.iter()) { assert_eq!(actual, expected) }] *)
Fixpoint check_zip (a b : list N) : outcome unit :=
  match a, b with
  | x :: a, y :: b => let* _ := check (x =? y)%N in check_zip a b
  | _, _ => Ret tt
  end.

Definition liskov : list N := [76; 105; 115; 107; 111; 118]%N.
Definition lamport : list N := [76; 97; 109; 112; 111; 114; 116]%N.
Definition gray : list N := [71; 114; 97; 121]%N.
Definition naur : list N := [78; 97; 117; 114]%N.
Definition knuth : list N := [75; 110; 117; 116; 104]%N.

(** * src/store/indexing_buffer.rs:410-652 *)

(** indexing_buffer.rs:428-430, the loop over the bits *)
Fixpoint check_bits (b : bitmap) (i : nat) (values : list bool) : outcome unit :=
  match values with
  | [] => Ret tt
  | v :: rest => let* _ := check_is (bm_is_set b i) v in check_bits b (i + 1) rest
  end.

(** indexing_buffer.rs:417-433 *)
Definition bitmap_rnd_test (values : list bool) : outcome unit :=
  let* bitmap := bm_appends bm_new values in
  let* _ := check_bits bitmap 0 values in
  check (bm_len bitmap =? length values).

Theorem C84_bitmap_rnd_test : forall values, bitmap_rnd_test values = Ret tt.
Proof.
  intros values. unfold bitmap_rnd_test. destruct (C07_bitmap_sequence values) as (b & E & L & R). rewrite E. cbn [bind].
  assert (G : forall rest done, values = done ++ rest -> check_bits b (length done) rest = Ret tt).
  { induction rest as [|v rest IH]; intros done V; [reflexivity|]. cbn [check_bits]. rewrite R.
    replace (length done <? length values) with true by (symmetry; apply Nat.ltb_lt; rewrite V, app_length; cbn; lia).
    rewrite V, app_nth2, Nat.sub_diag by lia. cbn [nth]. unfold check_is. cbn [bind]. rewrite Bool.eqb_reflx. cbn [check bind].
    replace (length done + 1) with (length (done ++ [v])) by (rewrite app_length; reflexivity). apply IH. rewrite <- app_assoc. exact V. }
  rewrite (G values [] eq_refl : check_bits b 0 values = Ret tt). cbn [bind]. rewrite L, Nat.eqb_refl. reflexivity.
Qed.
Print Assumptions C84_bitmap_rnd_test.

(** indexing_buffer.rs:436-457 *)
Definition bitmap_append_from_test : outcome unit :=
  let* dst := bm_appends bm_new (repeat true 6) in
  let* src := bm_appends bm_new [true; false; true; false; true] in
  let* r := bm_append_from dst src 0 2 in
  let '(dst, num_items) := r in
  let* _ := check (bm_len dst =? 9) in
  let* _ := check (num_items =? 3) in
  let* _ := check_is (bm_is_set dst 7) false in
  check_is (bm_is_set dst 8) true.

Example C84_bitmap_append_from_test : bitmap_append_from_test = Ret tt.
Proof. vm_compute. reflexivity. Qed.

(** Four assertions the buffer tests repeat. *)
Definition prim_is (p : profile) (b : prim_buf N) (len : nat) (nullable nulls : bool) : outcome unit :=
  let* _ := check (pb_len b =? len) in
  let* _ := check (length (pb_values b) =? len) in
  let* _ := check (Bool.eqb (pb_is_nullable b) nullable) in
  check_is (pb_has_nulls p b) nulls.

(** indexing_buffer.rs:459-478 *)
Definition test_primitive_buffer (p : profile) : outcome unit :=
  let* buffer := pb_append (pb_new false) 1%N in
  let* buffer := pb_append buffer 2%N in
  let* buffer := pb_append buffer 3%N in
  let* _ := prim_is p buffer 3 false false in
  prim_is p (pb_clear buffer) 0 false false.

Example C84_test_primitive_buffer : forall p, test_primitive_buffer p = Ret tt.
Proof. destruct p; vm_compute; reflexivity. Qed.

(** indexing_buffer.rs:480-508 *)
Definition test_primitive_nullable_buffer (p : profile) : outcome unit :=
  let* buffer := pb_append (pb_new true) 1%N in
  let* buffer := pb_append buffer 2%N in
  let* buffer := pb_append_null buffer in
  let* buffer := pb_append_null buffer in
  let* buffer := pb_append buffer 3%N in
  let* _ := check (pb_len buffer =? 3) in
  let* _ := check (pb_num_values buffer =? 5) in
  let* _ := check (Bool.eqb (pb_is_nullable buffer) true) in
  let* _ := check_is (pb_has_nulls p buffer) true in
  let buffer := pb_clear buffer in
  let* _ := prim_is p buffer 0 true false in
  let* buffer := pb_append buffer 10%N in
  prim_is p buffer 1 true false.

Example C84_test_primitive_nullable_buffer : forall p, test_primitive_nullable_buffer p = Ret tt.
Proof. destruct p; vm_compute; reflexivity. Qed.

(** The two tests of fixed-width buffers for any rows: append, look, clear, look,
    append again, look. *)
Definition prim_buffer_test (p : profile) (nullable : bool) (old new : list (option N)) : outcome unit :=
  let* buffer := pb_append_rows (pb_new nullable) old in
  let* _ := check (pb_num_values buffer =? length old) in
  let* _ := prim_is p buffer (length (somes old)) nullable (negb (forallb is_some old)) in
  let buffer := pb_clear buffer in
  let* _ := prim_is p buffer 0 nullable false in
  let* buffer := pb_append_rows buffer new in
  let* _ := check (pb_num_values buffer =? length new) in
  prim_is p buffer (length (somes new)) nullable (negb (forallb is_some new)).

Lemma nulls_counted {T} (rows : list (option T)) :
  length (somes rows) <= length rows /\ negb (length rows =? length (somes rows)) = negb (forallb is_some rows).
Proof.
  induction rows as [|[v|] rows (IH1 & IH2)]; [split; [reflexivity|reflexivity]|..]; cbn [somes length forallb is_some andb].
  - split; [lia|]. exact IH2.
  - split; [lia|]. replace (S (length rows) =? length (somes rows)) with false by (symmetry; apply Nat.eqb_neq; lia). reflexivity.
Qed.

Lemma has_nulls_counted p bm m : m <= bm_len bm -> validity_has_nulls p (Some bm) m = Ret (negb (bm_len bm =? m)).
Proof.
  intros L. unfold validity_has_nulls, sub64, usub. destruct (N.leb_spec (N.of_nat m) (N.of_nat (bm_len bm))) as [_|Z]; [|lia].
  cbn [bind]. f_equal. f_equal. destruct (Nat.eqb_spec (bm_len bm) m) as [E|E]; [subst m; rewrite N.sub_diag; reflexivity|].
  apply N.eqb_neq. lia.
Qed.

Theorem C84_primitive_buffers : forall p nullable old new, rows_allowed nullable old -> rows_allowed nullable new ->
  prim_buffer_test p nullable old new = Ret tt.
Proof.
  intros p nl old new AO AN. unfold prim_buffer_test, prim_is. destruct (proj1 (C11_primitive_buffer N nl old) AO) as (b & E & _ & NV & L & NL & HN).
  rewrite E. cbn [bind]. rewrite NV, L, NL, HN. change (length (pb_values b)) with (pb_len b). rewrite L, !Nat.eqb_refl, Bool.eqb_reflx.
  unfold check_is. cbn [bind check]. rewrite Bool.eqb_reflx. cbn [bind check].
  assert (CN : pb_is_nullable (pb_clear b) = nl) by (rewrite <- NL; unfold pb_is_nullable; cbn [pb_clear pb_validity]; destruct (pb_validity b); reflexivity).
  assert (CH : pb_has_nulls p (pb_clear b) = Ret false).
  { unfold pb_has_nulls. cbn [pb_clear pb_values pb_validity length]. destruct (pb_validity b) as [bm|]; [|reflexivity].
    cbn [option_map]. rewrite has_nulls_counted by (cbn; lia). reflexivity. }
  rewrite CN, CH. change (pb_len (pb_clear b)) with 0. change (length (pb_values (pb_clear b))) with 0.
  rewrite ?Nat.eqb_refl, Bool.eqb_reflx. cbn [bind check Bool.eqb].
  assert (NEW : exists b', pb_append_rows (pb_clear b) new = Ret b' /\ pb_num_values b' = length new /\ pb_len b' = length (somes new)
                  /\ pb_is_nullable b' = nl /\ pb_has_nulls p b' = Ret (negb (forallb is_some new))).
  { destruct nl.
    - destruct (proj1 C14_buffer_clear_exact N [old] new) as (c & b' & bm & R & A & V & NV' & L' & VB & _).
      cbn [pb_rounds] in R. rewrite E in R. cbn [bind] in R. injection R as <-. exists b'. split; [exact A|]. split; [exact NV'|]. split; [exact L'|].
      unfold pb_is_nullable, pb_has_nulls. rewrite VB, V. split; [reflexivity|]. unfold pb_num_values in NV'. rewrite VB in NV'.
      destruct (nulls_counted new) as (LE & <-). rewrite has_nulls_counted by (rewrite NV'; exact LE). rewrite NV'. reflexivity.
    - destruct (proj1 (proj2 C14_buffer_clear_exact) N [old] new) as (c & b' & R & A & _ & HB); [constructor; [exact AO|constructor]|exact AN|].
      cbn [pb_rounds] in R. rewrite E in R. cbn [bind] in R. injection R as <-. destruct (pb_holds_counts _ _ _ HB) as (H1 & H2 & H3 & H4). exists b'. auto. }
  destruct NEW as (b' & A' & NV' & L' & NL' & HN'). rewrite A'. cbn [bind]. rewrite NV', NL', HN'. change (length (pb_values b')) with (pb_len b'). rewrite L', !Nat.eqb_refl, !Bool.eqb_reflx. cbn [bind check]. rewrite Bool.eqb_reflx. reflexivity.
Qed.
Print Assumptions C84_primitive_buffers.

Definition bin_is (p : profile) (b : bin_buf) (len data : nat) (nullable nulls : bool) : outcome unit :=
  let* _ := check (bb_len b =? len) in
  let* _ := check (length (bb_data b) =? data) in
  let* _ := check (Bool.eqb (bb_is_nullable b) nullable) in
  check_is (bb_has_nulls p b) nulls.

(** indexing_buffer.rs:510-536 *)
Definition test_binary_buffer (p : profile) : outcome unit :=
  let* buffer := bb_append (bb_new false) liskov in
  let* buffer := bb_append buffer lamport in
  let* buffer := bb_append buffer gray in
  let* _ := bin_is p buffer 3 17 false false in
  let* _ := check_zip (bb_offsets buffer) [0; 6; 13; 17]%N in
  let buffer := bb_clear buffer in
  let* _ := bin_is p buffer 0 0 false false in
  let* _ := bb_append buffer naur in
  Ret tt.

Example C84_test_binary_buffer : forall p, test_binary_buffer p = Ret tt.
Proof. destruct p; vm_compute; reflexivity. Qed.

(** indexing_buffer.rs:538-567 *)
Definition test_binary_nullable_buffer (p : profile) : outcome unit :=
  let* buffer := bb_append (bb_new true) liskov in
  let* buffer := bb_append_null buffer in
  let* buffer := bb_append_null buffer in
  let* buffer := bb_append buffer lamport in
  let* buffer := bb_append_null buffer in
  let* buffer := bb_append buffer gray in
  let* _ := bin_is p buffer 3 17 true true in
  let* _ := check_zip (bb_offsets buffer) [0; 6; 13; 17]%N in
  let buffer := bb_clear buffer in
  let* _ := bin_is p buffer 0 0 true false in
  let* _ := bb_append buffer naur in
  Ret tt.

Example C84_test_binary_nullable_buffer : forall p, test_binary_nullable_buffer p = Ret tt.
Proof. destruct p; vm_compute; reflexivity. Qed.

(** indexing_buffer.rs:569-600 *)
Definition test_binary_append_from (p : profile) : outcome unit :=
  let* src := bb_append_rows (bb_new true) (repeat None 10) in
  let* src := bb_append src knuth in
  let* dst := bb_append (bb_new true) liskov in
  let* dst := bb_append_null dst in
  let* dst := bb_append_null dst in
  let* dst := bb_append dst lamport in
  let* dst := bb_append_null dst in
  let* dst := bb_append dst gray in
  let* dst := bb_append_null dst in
  let* r := bb_append_from p dst src 0 (bb_len src) 0 in
  let dst := fst r in
  let* _ := bin_is p dst 4 22 true true in
  check_zip (bb_offsets dst) [0; 6; 13; 17; 22]%N.

Example C84_test_binary_append_from : forall p, test_binary_append_from p = Ret tt.
Proof. destruct p; vm_compute; reflexivity. Qed.

(** The same for binary buffers, with the offsets. *)
Definition bin_buffer_test (p : profile) (nullable : bool) (old new : list (option (list N))) : outcome unit :=
  let* buffer := bb_append_rows (bb_new nullable) old in
  let* _ := bin_is p buffer (length (somes old)) (length (concat (somes old))) nullable (negb (forallb is_some old)) in
  let* _ := check_zip (bb_offsets buffer) (running_offsets 0 (somes old)) in
  let buffer := bb_clear buffer in
  let* _ := bin_is p buffer 0 0 nullable false in
  let* buffer := bb_append_rows buffer new in
  let* _ := bin_is p buffer (length (somes new)) (length (concat (somes new))) nullable (negb (forallb is_some new)) in
  check_zip (bb_offsets buffer) (running_offsets 0 (somes new)).

Lemma check_zip_same a : check_zip a a = Ret tt.
Proof. induction a as [|x a IH]; [reflexivity|]. cbn [check_zip]. rewrite N.eqb_refl. exact IH. Qed.

Theorem C84_binary_buffers : forall p nullable old new, rows_allowed nullable old -> rows_allowed nullable new ->
  (N.of_nat (length (concat (somes old))) <= 4294967295)%N -> (N.of_nat (length (concat (somes new))) <= 4294967295)%N ->
  bin_buffer_test p nullable old new = Ret tt.
Proof.
  intros p nl old new AO AN LO LN. unfold bin_buffer_test, bin_is. destruct (bb_new_rows nl old AO LO) as (b & E & HD & HO & HR).
  assert (HS : validity_shows (bb_validity b) nl old) by (eapply val_rep_shows; eauto).
  destruct (bb_holds_counts b nl old (conj HD (conj HO HS))) as (NV & L & NL & HN).
  rewrite E. cbn [bind]. rewrite L, NL, HN, HD, HO, !Nat.eqb_refl, Bool.eqb_reflx.
  unfold check_is. cbn [bind check]. rewrite Bool.eqb_reflx. cbn [bind check]. rewrite check_zip_same. cbn [bind].
  assert (CN : bb_is_nullable (bb_clear b) = nl) by (rewrite <- NL; unfold bb_is_nullable; cbn [bb_clear bb_validity]; destruct (bb_validity b); reflexivity).
  assert (CL : bb_len (bb_clear b) = 0) by (unfold bb_len; cbn [bb_clear bb_offsets]; rewrite firstn_length; lia).
  assert (CH : bb_has_nulls p (bb_clear b) = Ret false).
  { unfold bb_has_nulls. rewrite CL. cbn [bb_clear bb_validity]. destruct (bb_validity b) as [bm|]; [|reflexivity].
    cbn [option_map]. rewrite has_nulls_counted by (cbn; lia). reflexivity. }
  rewrite CN, CH, CL. change (length (bb_data (bb_clear b))) with 0. rewrite ?Nat.eqb_refl, Bool.eqb_reflx. cbn [bind check Bool.eqb].
  assert (NEW : exists b', bb_append_rows (bb_clear b) new = Ret b' /\ bb_data b' = concat (somes new) /\ bb_offsets b' = running_offsets 0 (somes new)
                  /\ bb_len b' = length (somes new) /\ bb_is_nullable b' = nl /\ bb_has_nulls p b' = Ret (negb (forallb is_some new))).
  { assert (FB : Forall (fun r => N.of_nat (length (concat (somes r))) <= 4294967295)%N [new; old]) by (repeat constructor; assumption).
    destruct nl.
    - destruct (proj1 (proj2 (proj2 C14_buffer_clear_exact)) [old] new FB) as (c & b' & bm & R & A & D & O & NV' & VB & _).
      cbn [bb_rounds] in R. rewrite E in R. cbn [bind] in R. injection R as <-. exists b'. split; [exact A|]. split; [exact D|]. split; [exact O|].
      assert (L' : bb_len b' = length (somes new)) by (unfold bb_len; rewrite O, running_length; lia).
      split; [exact L'|]. unfold bb_is_nullable, bb_has_nulls. rewrite VB, L'. split; [reflexivity|]. unfold bb_num_values in NV'. rewrite VB in NV'.
      destruct (nulls_counted new) as (LE & <-). rewrite has_nulls_counted by (rewrite NV'; exact LE). rewrite NV'. reflexivity.
    - destruct (proj2 (proj2 (proj2 C14_buffer_clear_exact)) [old] new FB) as (c & b' & R & A & _ & HB); [constructor; [exact AO|constructor]|exact AN|].
      cbn [bb_rounds] in R. rewrite E in R. cbn [bind] in R. injection R as <-. destruct (bb_holds_counts _ _ _ HB) as (H1 & H2 & H3 & H4). destruct HB as (D & O & _). exists b'. auto 10. }
  destruct NEW as (b' & A' & D & O & L' & NL' & HN'). rewrite A'. cbn [bind]. rewrite L', NL', HN', D, O, !Nat.eqb_refl, !Bool.eqb_reflx. cbn [bind check]. rewrite Bool.eqb_reflx. cbn [bind check]. rewrite check_zip_same. reflexivity.
Qed.
Print Assumptions C84_binary_buffers.

Definition bool_is (b : bool_buf) (len values : nat) (nullable nulls : bool) : outcome unit :=
  let* _ := check (ob_len b =? len) in
  let* _ := check (bm_len (ob_values b) =? values) in
  let* _ := check (Bool.eqb (ob_is_nullable b) nullable) in
  check (Bool.eqb (ob_has_nulls b) nulls).

(** indexing_buffer.rs:602-624 *)
Definition test_boolean_buffer : outcome unit :=
  let* buffer := ob_append (ob_new false) true in
  let* buffer := ob_append buffer true in
  let* buffer := ob_append buffer false in
  let* buffer := ob_append buffer true in
  let* _ := bool_is buffer 4 4 false false in
  let buffer := ob_clear buffer in
  let* _ := bool_is buffer 0 0 false false in
  let* _ := ob_append buffer true in
  Ret tt.

Example C84_test_boolean_buffer : test_boolean_buffer = Ret tt.
Proof. vm_compute. reflexivity. Qed.

(** indexing_buffer.rs:626-651 *)
Definition test_boolean_nullable_buffer : outcome unit :=
  let* buffer := ob_append (ob_new true) true in
  let* buffer := ob_append buffer true in
  let* buffer := ob_append_null buffer in
  let* buffer := ob_append_null buffer in
  let* buffer := ob_append buffer false in
  let* buffer := ob_append_null buffer in
  let* buffer := ob_append buffer true in
  let* _ := bool_is buffer 7 4 true true in
  let buffer := ob_clear buffer in
  let* _ := bool_is buffer 0 0 true false in
  let* _ := ob_append buffer true in
  Ret tt.

Example C84_test_boolean_nullable_buffer : test_boolean_nullable_buffer = Ret tt.
Proof. vm_compute. reflexivity. Qed.

(** The same for boolean buffers. *)
Definition bool_buffer_test (nullable : bool) (old new : list (option bool)) : outcome unit :=
  let* buffer := ob_append_rows (ob_new nullable) old in
  let* _ := bool_is buffer (length old) (length (somes old)) nullable (negb (forallb is_some old)) in
  let buffer := ob_clear buffer in
  let* _ := bool_is buffer 0 0 nullable false in
  let* buffer := ob_append_rows buffer new in
  bool_is buffer (length new) (length (somes new)) nullable (negb (forallb is_some new)).

Theorem C84_boolean_buffers : forall nullable old new, rows_allowed nullable old -> rows_allowed nullable new ->
  bool_buffer_test nullable old new = Ret tt.
Proof.
  intros nl old new AO AN. unfold bool_buffer_test, bool_is. destruct (C13_bool_buffer nl old AO) as (b & E & (LV & _) & _ & L & NL & HN).
  rewrite E. cbn [bind]. rewrite L, LV, NL, HN, !Nat.eqb_refl, !Bool.eqb_reflx. cbn [bind check].
  assert (CN : ob_is_nullable (ob_clear b) = nl) by (rewrite <- NL; unfold ob_is_nullable; cbn [ob_clear ob_validity]; destruct (ob_validity b); reflexivity).
  rewrite CN. change (ob_len (ob_clear b)) with 0. change (bm_len (ob_values (ob_clear b))) with 0. change (ob_has_nulls (ob_clear b)) with false.
  rewrite ?Nat.eqb_refl, Bool.eqb_reflx. cbn [bind check Bool.eqb].
  destruct (C14_bool_clear_exact nl [old] new) as (c & b' & R & A & L' & LV' & NL' & HN' & _); [constructor; [exact AO|constructor]|exact AN|].
  cbn [ob_rounds] in R. rewrite E in R. cbn [bind] in R. injection R as <-.
  rewrite A. cbn [bind]. rewrite L', LV', NL', HN', !Nat.eqb_refl, !Bool.eqb_reflx. reflexivity.
Qed.
Print Assumptions C84_boolean_buffers.

(** * src/store/encoding/varint.rs:143-216 *)

(** varint.rs:149-160, the local function [check] *)
Definition check_varint (p : profile) (value : N) (expected : list N) : outcome unit :=
  let* r := encode_varint value (repeat 0%N MAX_VARINT_LEN) in
  let '(buf, encoded_len) := r in
  let* _ := check (length (firstn encoded_len buf) =? length expected) in
  let* _ := check_zip (firstn encoded_len buf) expected in
  let* _ := check (encoded_len_varint value =? encoded_len) in
  let* r := decode_varint p expected in
  let* r := unwrap r in
  let '(roundtrip_value, len) := r in
  let* _ := check (value =? roundtrip_value)%N in
  check (len =? length expected).

(** varint.rs:162-214 *)
Definition varint_cases : list (N * list N) :=
  [ (2 ^ 0 - 1, [0]); (2 ^ 0, [1]);
    (2 ^ 7 - 1, [127]); (2 ^ 7, [128; 1]); (300, [172; 2]);
    (2 ^ 14 - 1, [255; 127]); (2 ^ 14, [128; 128; 1]);
    (2 ^ 21 - 1, [255; 255; 127]); (2 ^ 21, [128; 128; 128; 1]);
    (2 ^ 28 - 1, [255; 255; 255; 127]); (2 ^ 28, [128; 128; 128; 128; 1]);
    (2 ^ 35 - 1, [255; 255; 255; 255; 127]); (2 ^ 35, [128; 128; 128; 128; 128; 1]);
    (2 ^ 42 - 1, [255; 255; 255; 255; 255; 127]); (2 ^ 42, [128; 128; 128; 128; 128; 128; 1]);
    (2 ^ 49 - 1, [255; 255; 255; 255; 255; 255; 127]); (2 ^ 49, [128; 128; 128; 128; 128; 128; 128; 1]);
    (2 ^ 56 - 1, [255; 255; 255; 255; 255; 255; 255; 127]); (2 ^ 56, [128; 128; 128; 128; 128; 128; 128; 128; 1]);
    (2 ^ 63 - 1, [255; 255; 255; 255; 255; 255; 255; 255; 127]); (2 ^ 63, [128; 128; 128; 128; 128; 128; 128; 128; 128; 1]);
    (18446744073709551615, [255; 255; 255; 255; 255; 255; 255; 255; 255; 1]) ]%N.

Example C84_varint : forall p, Forall (fun c => check_varint p (fst c) (snd c) = Ret tt) varint_cases.
Proof. destruct p; unfold varint_cases; repeat (apply Forall_cons; [vm_compute; reflexivity|]); apply Forall_nil. Qed.

(** The same check for every value, with the bytes the encoder gives. *)
Theorem C84_varint_any : forall p v, (v < 2 ^ 64)%N -> exists bytes, check_varint p v bytes = Ret tt.
Proof.
  intros p v H. destruct (C01_varint_roundtrip v H) as (bs & _ & E & _ & D). exists bs. unfold check_varint.
  rewrite (E (repeat 0%N MAX_VARINT_LEN)) by (cbn; lia). cbn [bind]. rewrite firstn_app, firstn_all, Nat.sub_diag. cbn [firstn]. rewrite app_nil_r.
  rewrite Nat.eqb_refl. cbn [bind check]. rewrite check_zip_same. cbn [bind].
  destruct (C02_varint_length v H) as (_ & K & _). destruct (K (repeat 0%N MAX_VARINT_LEN)) as (buf' & E2 & _).
  { destruct (C02_varint_length v H) as ((_ & B) & _). cbn. lia. }
  rewrite (E (repeat 0%N MAX_VARINT_LEN)) in E2 by (cbn; lia). injection E2 as _ <-. rewrite Nat.eqb_refl. cbn [bind check].
  specialize (D p []). rewrite app_nil_r in D. rewrite D. cbn [bind unwrap]. rewrite N.eqb_refl, Nat.eqb_refl. reflexivity.
Qed.
Print Assumptions C84_varint_any.

(** * src/store/encoding/bitmap_rle.rs:311-382 *)

(** bitmap_rle.rs:315-322 [bit_positions], from position [i] on *)
Fixpoint bit_positions (i : N) (values : list bool) : list N :=
  match values with
  | [] => []
  | v :: rest => (if v then [i] else []) ++ bit_positions (i + 1) rest
  end.

(** bitmap_rle.rs:324-346 [roundtrip_test] *)
Definition roundtrip_test (p : profile) (values : list bool) : outcome (list N) :=
  let positions := bit_positions 0 values in
  let* encoded := rle_encode rle_new values in
  let* r := rle_decode p encoded (repeat 0%N (length positions)) in
  let '(decoded_values, num_decoded_values) := r in
  let* _ := check (num_decoded_values =? length decoded_values) in
  let* _ := check_zip decoded_values positions in
  Ret encoded.

(** bitmap_rle.rs:348-381: the four tests, with their expected lengths *)
Definition rle_cases : list (list bool * nat) :=
  [ (repeat true 24, 2); (repeat false 24, 2);
    (repeat false 8 ++ repeat true 8 ++ repeat false 8, 4);
    (repeat false 4 ++ repeat true 100 ++ repeat false 14 ++ repeat true 14, 9) ].

Example C84_bitmap_rle : forall p, Forall (fun c => (let* encoded := roundtrip_test p (fst c) in check (length encoded =? snd c)) = Ret tt) rle_cases.
Proof. destruct p; unfold rle_cases; repeat (apply Forall_cons; [vm_compute; reflexivity|]); apply Forall_nil. Qed.

(** The round trip for every sequence of bits. *)
Theorem C84_roundtrip_any : forall p values, (N.of_nat (length values) <= 2 ^ 32 - 8)%N ->
  exists encoded, roundtrip_test p values = Ret encoded /\ rle_encode rle_new values = Ret encoded.
Proof.
  intros p values H.
  assert (BP : forall vs i, bit_positions i vs = set_positions i vs) by (induction vs as [|[|] vs IH]; intros i; cbn; [reflexivity|rewrite IH; reflexivity|apply IH]).
  assert (LP : forall vs i, length (set_positions i vs) = count_true vs) by (induction vs as [|[|] vs IH]; intros i; cbn; [reflexivity|rewrite IH; reflexivity|apply IH]).
  destruct (C16_rle_round_trip p values (repeat 0%N (length (bit_positions 0 values))) H) as (enc & E & D).
  { rewrite repeat_length, BP, LP. lia. }
  exists enc. split; [|exact E]. unfold roundtrip_test. rewrite E. cbn [bind]. rewrite D. cbn [bind].
  rewrite skipn_all2 by (rewrite repeat_length, BP, LP; lia). rewrite app_nil_r, LP, Nat.eqb_refl, BP. cbn [bind check]. rewrite check_zip_same. reflexivity.
Qed.
Print Assumptions C84_roundtrip_any.

(** * The encoders *)

(** src/store/encoding/raw/primitive_enc.rs:235-259: encode one buffer and flush,
    counting the blocks. *)
Definition prim_encoder_test (p : profile) (values : list N) (block_size : N) (before after : nat) : outcome unit :=
  let* buf := pb_append_rows (pb_new true) (map Some values) in
  let* r := pe_encode collect p 4 (S (pb_len buf)) (pe_new block_size true) buf [] in
  let '(encoder, blocks, res) := r in
  let* _ := unwrap res in
  let* _ := check (length blocks =? before) in
  let* r := pe_flush collect p 4 encoder blocks in
  let '(_, blocks, res) := r in
  let* _ := unwrap res in
  check (length blocks =? after).

Example C84_prim_test_remaining : forall p, prim_encoder_test p [10%N] 1000 0 1 = Ret tt.
Proof. destruct p; vm_compute; reflexivity. Qed.

Example C84_prim_test_encoder : forall p, prim_encoder_test p (map N.of_nat (seq 0 1005)) 100 40 41 = Ret tt.
Proof. destruct p; vm_compute; reflexivity. Qed.

(** src/store/encoding/raw/binary_enc.rs:262-286 *)
Definition bin_encoder_test (p : profile) (values : list (list N)) (block_size : N) (before after : nat) : outcome unit :=
  let* buf := bb_append_rows (bb_new true) (map Some values) in
  let* r := be_encode collect p (length (bb_offsets buf)) (be_new block_size true) buf [] in
  let '(encoder, blocks, res) := r in
  let* _ := unwrap res in
  let* _ := check (length blocks =? before) in
  let* r := be_flush collect p encoder blocks in
  let '(_, blocks, res) := r in
  let* _ := unwrap res in
  check (length blocks =? after).

Example C84_bin_test_remaining : forall p, bin_encoder_test p [[116; 101; 115; 116]%N] 1000 0 1 = Ret tt.
Proof. destruct p; vm_compute; reflexivity. Qed.

Example C84_bin_test_encoder : forall p,
  bin_encoder_test p [[116; 101; 115; 116; 49]; [116; 101; 115; 116; 50]; [116; 101; 115; 116; 51]]%N 10 1 2 = Ret tt.
Proof. destruct p; vm_compute; reflexivity. Qed.

(** * src/store/io/mod.rs:125-200 *)

(** mod.rs:151-169: the requests, block by block from [offset] on *)
Fixpoint io_ops (i : N) (offset : N) (blocks : list (list N)) : list read_op :=
  match blocks with
  | [] => []
  | b :: rest => mkop offset (offset + N.of_nat (length b)) (DataBlock i) :: io_ops (i + 1) (offset + N.of_nat (length b)) rest
  end.

(** mod.rs:182-195: the loop over the items and the two iterators, and 197-198
    their being exhausted at the end *)
Fixpoint check_items (items : list block_item) (ops : list read_op) (blocks : list (list N)) : outcome unit :=
  match items, ops, blocks with
  | [], [], [] => Ret tt
  | it :: items, op :: ops, data :: blocks =>
      let* buf := unwrap (bi_buf it) in
      let* _ := check (match bi_tag it, op_tag op with
                       | DataBlock a, DataBlock b => (a =? b)%N
                       | GenericBlock, GenericBlock | IndexBlock, IndexBlock => true
                       | _, _ => false end) in
      let* _ := check (length buf =? length data) in
      let* _ := check_zip buf data in
      check_items items ops blocks
  | _, _, _ => Panic PExpect
  end.

Lemma io_ops_in blocks : forall i done file, file = done ++ concat blocks ->
  Forall (in_file file) (io_ops i (N.of_nat (length done)) blocks)
  /\ map (range_bytes file) (io_ops i (N.of_nat (length done)) blocks) = blocks.
Proof.
  induction blocks as [|b blocks IH]; intros i done file E; cbn [io_ops map]; [split; [constructor|reflexivity]|].
  cbn [concat] in E. destruct (IH (i + 1)%N (done ++ b) file) as (A & B); [rewrite <- app_assoc; exact E|].
  rewrite app_length, Nat2N.inj_add in A, B. split.
  - constructor; [|exact A]. unfold in_file. cbn [op_start op_end]. rewrite E, !app_length. lia.
  - rewrite B. f_equal. unfold range_bytes. cbn [op_start op_end]. rewrite N2Nat.inj_add, !Nat2N.id.
    rewrite E, skipn_app, skipn_all, Nat.sub_diag. cbn [app skipn]. rewrite (Nat.add_comm (length done)), Nat.add_sub.
    rewrite firstn_app, firstn_all, Nat.sub_diag. cbn [firstn]. apply app_nil_r.
Qed.

Lemma items_checked file blocks : forall i offset, map (range_bytes file) (io_ops i offset blocks) = blocks ->
  check_items (map (fun op => mkitem (op_tag op) (Ok (range_bytes file op))) (io_ops i offset blocks)) (io_ops i offset blocks) blocks = Ret tt.
Proof.
  induction blocks as [|b blocks IH]; intros i offset E; [reflexivity|]. cbn [io_ops map] in E. injection E as E1 E2.
  cbn [io_ops map check_items bi_buf bi_tag op_tag unwrap bind]. rewrite N.eqb_refl. cbn [check bind]. rewrite E1, Nat.eqb_refl. cbn [check bind].
  rewrite check_zip_same. cbn [bind]. apply IH. exact E2.
Qed.

(** mod.rs:135-199, for any blocks (of any number and length), any directory, any
    name, and any schedule of the reads that gets to the end; such schedules
    exist.  The operating system does what it is asked to. *)
Theorem C84_io_roundtrip : forall p w d f blocks,
  all_succeed w -> 0 < wd_max w -> (N.of_nat (length (concat blocks)) < 9223372036854775808)%N ->
  exists w1 wr w2 wr2 rs file rd,
    writer_new w f = (w1, Ok wr)
    /\ writer_run w1 wr (map WBlock blocks ++ [WFlush]) = (w2, wr2, rs) /\ Forall (fun r => r = Ok tt) rs
    /\ reader_new false false (directory_after d (wd_log w2)) f = Ok rd
    /\ directory_after d (wd_log w2) (rd_file rd) = Some file
    /\ (forall es s polls, Forall harmless es -> stream_run p file (read_blocks (io_ops 0 0 blocks)) es = (s, polls) -> In PEnd polls ->
          check_items (items_of polls) (io_ops 0 0 blocks) blocks = Ret tt)
    /\ exists es s polls, Forall harmless es /\ stream_run p file (read_blocks (io_ops 0 0 blocks)) es = (s, polls) /\ In PEnd polls.
Proof.
  intros p w d f blocks AS M L. destruct (C44_no_false_alarm w f (map WBlock blocks ++ [WFlush]) AS M) as (w1 & wr & N & w2 & wr2 & rs & R & OK).
  destruct (C39_contents_and_position d _ _ _ _ _ _ _ _ M N R OK) as (D & _).
  exists w1, wr, w2, wr2, rs, (concat blocks), (mkreader f (reader_len (concat blocks))).
  split; [exact N|]. split; [exact R|]. split; [exact OK|]. split; [unfold reader_new; rewrite D; reflexivity|]. split; [exact D|].
  destruct (io_ops_in blocks 0%N [] (concat blocks) eq_refl) as (IN & RB). cbn [length] in IN, RB.
  assert (FO : file_ok (concat blocks)) by exact L. split.
  - intros es s polls H E X. destruct (C42_good_ranges p _ _ es s polls FO IN H E) as (_ & K). rewrite (K X). apply items_checked. exact RB.
  - set (ops := io_ops 0 0 blocks) in *.
    set (order := map (fun ix => (ix, None) : nat * option (list pread_event)) (seq 0 (length ops))).
    destruct (C42_everything_answered p (concat blocks) ops (fun _ => []) (repeat order (2 * length ops + 1))) as (s & polls & E & X & _).
    + exact FO.
    + eapply Forall_impl; [|exact IN]. intros op (A & B). unfold op_ok. change u64_lim with 18446744073709551616%N. lia.
    + apply Forall_forall. intros o O. apply repeat_spec in O. subst o. unfold covers, order. intros ix Hix. rewrite map_map. cbn [fst]. rewrite map_id. apply in_seq. lia.
    + rewrite repeat_length. lia.
    + eexists _, s, polls. split; [|split; [exact E|exact X]].
      apply Forall_forall. intros e H. apply in_concat in H. destruct H as (l & Hl & He). apply in_map_iff in Hl. destruct Hl as (o & <- & Ho).
      apply repeat_spec in Ho. subst o. unfold round in He. apply in_app_or in He. destruct He as [He|[<-|[]]].
      * apply in_map_iff in He. destruct He as (ix & <- & _). cbn. tauto.
      * cbn [harmless]. unfold order. apply Forall_forall. intros o Ho. apply in_map_iff in Ho. destruct Ho as (ix & <- & _). exact I.
Qed.
Print Assumptions C84_io_roundtrip.

(** * src/store/segment_writer.rs:331-373 *)

(** segment_writer.rs:341-347; the identifier is random *)
Definition scaffold_info (id : list N) : segment_info :=
  mksinfo id [116; 101; 115; 116; 95; 100; 98]%N [116; 101; 115; 116; 95; 116; 97; 98; 108; 101]%N 4 100000.

(** segment_writer.rs:351-357 *)
Definition scaffold_column : column_info :=
  mkcinfo [116; 101; 115; 116; 32; 99; 111; 108; 117; 109; 110; 115]%N TString Raw NoIndex false.

(** segment_writer.rs:338-372 for any identifier, directory and order of the hash
    maps *)
Theorem C84_test_indexing_pipeline_scaffold : forall p w base id it,
  all_succeed w -> 0 < wd_max w -> is_id id ->
  exists buffer w1 sg w2 sg2 rs w3,
    bb_append (bb_new false) [116; 101; 115; 116]%N = Ret buffer
    /\ segment_new w base (scaffold_info id) = (w1, Ok sg)
    /\ seg_run p w1 sg [SColumn scaffold_column [CWrite buffer; CWrite buffer; CClose]; SClose it] = Ret (w2, sg2, rs) /\ all_ok rs
    /\ segment_sync w2 sg2 = (w3, Ok tt).
Proof.
  intros p w base id it AS M ID. destruct (bb_append (bb_new false) [116; 101; 115; 116]%N) as [buffer|k|] eqn:B; [|discriminate B..].
  destruct (segment_blocks p [SColumn scaffold_column [CWrite buffer; CWrite buffer; CClose]; SClose it]) as [blocks| |] eqn:E.
  2,3: injection B as <-; destruct p; vm_compute in E; discriminate E.
  assert (SU : supported [SColumn scaffold_column [CWrite buffer; CWrite buffer; CClose]; SClose it]).
  { constructor; [left; reflexivity|]. constructor; [exact I|constructor]. }
  destruct (C45_no_false_alarm p w base (scaffold_info id) _ blocks M ID AS SU E) as (w1 & sg & w2 & sg2 & rs & NW & R & A & w3 & SY).
  exists buffer, w1, sg, w2, sg2, rs, w3. split; [reflexivity|]. split; [exact NW|]. split; [exact R|]. split; [exact A|exact SY].
Qed.
Print Assumptions C84_test_indexing_pipeline_scaffold.

(** Concrete: the hypotheses of the two tests with random input can be met; an
    identifier, and blocks read back. *)
Example C84_witness :
  let w := mkworld [] [] 4096 in
  all_succeed w /\ 0 < wd_max w /\ is_id (repeat 7%N 16)
  /\ io_ops 0 0 [[1; 2; 3]; [4]; [5; 6]]%N = [mkop 0 3 (DataBlock 0); mkop 3 4 (DataBlock 1); mkop 4 6 (DataBlock 2)]
  /\ check_items [mkitem (DataBlock 0) (Ok [1; 2; 3]%N); mkitem (DataBlock 1) (Ok [4]%N); mkitem (DataBlock 2) (Ok [5; 6]%N)]
       (io_ops 0 0 [[1; 2; 3]; [4]; [5; 6]]%N) [[1; 2; 3]; [4]; [5; 6]]%N = Ret tt
  /\ check_items [mkitem (DataBlock 0) (Ok [1; 2; 3]%N); mkitem (DataBlock 1) (Ok [5]%N); mkitem (DataBlock 2) (Ok [5; 6]%N)]
       (io_ops 0 0 [[1; 2; 3]; [4]; [5; 6]]%N) [[1; 2; 3]; [4]; [5; 6]]%N = Panic PAssert
  /\ bitmap_rnd_test (repeat true 9000 ++ [false]) = Ret tt.
Proof.
  cbv zeta. split; [constructor|]. split; [cbn; lia|]. split; [split; [reflexivity|repeat constructor]|].
  split; [reflexivity|]. split; [vm_compute; reflexivity|]. split; [vm_compute; reflexivity|]. apply C84_bitmap_rnd_test.
Qed.
