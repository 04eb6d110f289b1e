(** Property C92: segments in a directory whose file system does not tell upper
    from lower case (the usual kind on macOS and Windows).  The names are those of
    segment_writer.rs:145-152. *)
From Verif Require Import Base Buffers Sink BinEnc Io SpecIo Metadata Names PropsNames Segment SpecSegment IoProofs PropsSegmentRef PropsSegmentEx PropsReadBack PropsCursor.
Open Scope nat_scope.

(** * Such a file system *)

(** It behaves like one that only has names without upper case letters, where
    every name means the one with its letters turned into lower case. *)
Definition in_lower_case (e : fs_event) : fs_event :=
  match e with
  | FCreate f => FCreate (map lower f)
  | FAppend f bs => FAppend (map lower f) bs
  | FSync f => FSync (map lower f)
  end.

(** The file found under the name [f] after the effects [l]. *)
Definition caseless_after (d : directory) (l : list fs_event) (f : path) : option (list N) :=
  directory_after d (map in_lower_case l) (map lower f).

(** * When two segments have the same names *)

(** Bit [k] of an identifier, the first bit of its first byte being bit 0; and the
    number its bits [6 * i .. 6 * i + 5] make (bits past the end are 0). *)
Definition id_bit (id : list N) (k : nat) : N :=
  N.b2n (N.testbit (nth (k / 8) id 0%N) (N.of_nat (7 - k mod 8))).
Definition six (id : list N) (i : nat) : N :=
  (32 * id_bit id (6 * i) + 16 * id_bit id (6 * i + 1) + 8 * id_bit id (6 * i + 2)
   + 4 * id_bit id (6 * i + 3) + 2 * id_bit id (6 * i + 4) + id_bit id (6 * i + 5))%N.

(** 0 to 25 are written as upper case letters, 26 to 51 as lower case ones. *)
Definition same_letter (v u : N) : Prop :=
  (v = u \/ (v < 26 /\ u = v + 26) \/ (u < 26 /\ v = u + 26))%N.

Definition byte_parts (a : N) : Prop :=
  let b k := N.b2n (N.testbit a k) in
  (a / 4 = 32 * b 7 + 16 * b 6 + 8 * b 5 + 4 * b 4 + 2 * b 3 + b 2
  /\ a mod 4 = 2 * b 1 + b 0
  /\ a / 16 = 8 * b 7 + 4 * b 6 + 2 * b 5 + b 4
  /\ a mod 16 = 8 * b 3 + 4 * b 2 + 2 * b 1 + b 0
  /\ a / 64 = 2 * b 7 + b 6
  /\ a mod 64 = 32 * b 5 + 16 * b 4 + 8 * b 3 + 4 * b 2 + 2 * b 1 + b 0)%N.

Lemma parts a : (a < 256)%N -> byte_parts a.
Proof.
  intros L. assert (G : Forall (fun n => byte_parts (N.of_nat n)) (seq 0 256)).
  { unfold byte_parts. apply Forall_forall. intros n Hn.
    assert (B : forallb (fun n =>
      let a := N.of_nat n in let b k := N.b2n (N.testbit a k) in
      ((a / 4 =? 32 * b 7 + 16 * b 6 + 8 * b 5 + 4 * b 4 + 2 * b 3 + b 2) && (a mod 4 =? 2 * b 1 + b 0)
       && (a / 16 =? 8 * b 7 + 4 * b 6 + 2 * b 5 + b 4) && (a mod 16 =? 8 * b 3 + 4 * b 2 + 2 * b 1 + b 0)
       && (a / 64 =? 2 * b 7 + b 6) && (a mod 64 =? 32 * b 5 + 16 * b 4 + 8 * b 3 + 4 * b 2 + 2 * b 1 + b 0))%N) (seq 0 256) = true)
      by (vm_compute; reflexivity).
    rewrite forallb_forall in B. specialize (B n Hn). cbv zeta in B. rewrite !andb_true_iff, !N.eqb_eq in B. cbv zeta. tauto. }
  rewrite Forall_forall in G. rewrite <- (N2Nat.id a). apply G. apply in_seq. lia.
Qed.

Lemma first_six a : (a < 256)%N -> let b k := N.b2n (N.testbit a k) in
  (a / 4 = 32 * b 7 + 16 * b 6 + 8 * b 5 + 4 * b 4 + 2 * b 3 + b 2)%N.
Proof. intros L. exact (proj1 (parts a L)). Qed.
Lemma second_six a c : (a < 256)%N -> (c < 256)%N -> let b k := N.b2n (N.testbit a k) in let e k := N.b2n (N.testbit c k) in
  (a mod 4 * 16 + c / 16 = 32 * b 1 + 16 * b 0 + 8 * e 7 + 4 * e 6 + 2 * e 5 + e 4)%N.
Proof. intros L M b e. destruct (parts a L) as (_ & P & _). destruct (parts c M) as (_ & _ & Q & _). rewrite P, Q. fold (b 1%N) (b 0%N) (e 7%N) (e 6%N) (e 5%N) (e 4%N). lia. Qed.
Lemma third_six a c : (a < 256)%N -> (c < 256)%N -> let b k := N.b2n (N.testbit a k) in let e k := N.b2n (N.testbit c k) in
  (a mod 16 * 4 + c / 64 = 32 * b 3 + 16 * b 2 + 8 * b 1 + 4 * b 0 + 2 * e 7 + e 6)%N.
Proof. intros L M b e. destruct (parts a L) as (_ & _ & _ & P & _). destruct (parts c M) as (_ & _ & _ & _ & Q & _). rewrite P, Q. fold (b 3%N) (b 2%N) (b 1%N) (b 0%N) (e 7%N) (e 6%N). lia. Qed.
Lemma fourth_six a : (a < 256)%N -> let b k := N.b2n (N.testbit a k) in
  (a mod 64 = 32 * b 5 + 16 * b 4 + 8 * b 3 + 4 * b 2 + 2 * b 1 + b 0)%N.
Proof. intros L. exact (proj2 (proj2 (proj2 (proj2 (proj2 (parts a L)))))). Qed.
Lemma last_six a : (a < 256)%N -> let b k := N.b2n (N.testbit a k) in let e k := N.b2n (N.testbit 0 k) in
  (a mod 4 * 16 = 32 * b 1 + 16 * b 0 + 8 * e 7 + 4 * e 6 + 2 * e 5 + e 4)%N.
Proof. intros L b e. transitivity (a mod 4 * 16 + 0 / 16)%N; [change (0 / 16)%N with 0%N; lia|]. apply second_six; [exact L|lia]. Qed.

(** The characters of a name are the numbers of the identifier, six bits at a
    time. *)
Lemma name_sixes id : is_id id -> b64_encode id = map (fun i => b64_char (six id i)) (seq 0 22).
Proof.
  intros [L F]. do 16 (destruct id as [|? id]; [discriminate L|]). destruct id; [|discriminate L].
  repeat match goal with H : Forall _ (_ :: _) |- _ => apply Forall_cons_iff in H; destruct H end.
  cbn [b64_encode map seq].
  repeat (apply f_equal2; [apply f_equal; first [apply first_six; assumption|apply second_six; assumption|apply third_six; assumption|apply fourth_six; assumption|apply last_six; assumption]|]).
  reflexivity.
Qed.

Lemma lower_char v u : (v < 64)%N -> (u < 64)%N -> (lower (b64_char v) = lower (b64_char u) <-> same_letter v u).
Proof.
  intros Hv Hu. unfold same_letter, lower, b64_char.
  repeat match goal with |- context [N.ltb ?a ?b] => destruct (N.ltb_spec a b) | |- context [N.eqb ?a ?b] => destruct (N.eqb_spec a b)
    | |- context [N.leb ?a ?b] => destruct (N.leb_spec a b) end; cbn [andb]; lia.
Qed.

Lemma six_lt id i : (six id i < 64)%N.
Proof.
  unfold six, id_bit.
  repeat match goal with |- context [N.b2n ?b] => let q := fresh in assert (q : (N.b2n b <= 1)%N) by (destruct b; cbn; lia); revert q; generalize (N.b2n b) end.
  lia.
Qed.

(** Joining a name to a directory, whatever the case. *)
Lemma join_lower base : exists before, forall name, map lower (path_join base name) = before ++ map lower name.
Proof.
  unfold path_join. destruct base as [|x base]; [exists []; reflexivity|].
  destruct (last (x :: base) 0 =? 47)%N; eexists; intros name; rewrite !map_app; [reflexivity|]. rewrite app_assoc. reflexivity.
Qed.

Lemma app_same {A} : forall (x y s t : list A), length x = length y -> x ++ s = y ++ t -> x = y /\ s = t.
Proof.
  induction x as [|c x IH]; intros [|c' y] s t L E; try discriminate L; [auto|].
  cbn in E. injection E as -> E. destruct (IH y s t) as [-> ->]; auto.
Qed.

Lemma map_seq_ext {A} (f g : nat -> A) n : map f (seq 0 n) = map g (seq 0 n) <-> forall i, i < n -> f i = g i.
Proof.
  split.
  - intros E i Hi. assert (Q : nth_error (map f (seq 0 n)) i = nth_error (map g (seq 0 n)) i) by (rewrite E; reflexivity).
    rewrite !nth_error_map in Q. rewrite nth_error_nth' with (d := 0) in Q by (rewrite seq_length; exact Hi). rewrite seq_nth in Q by exact Hi.
    cbn in Q. congruence.
  - intros H. apply map_ext_in. intros i Hi. apply H. apply in_seq in Hi. lia.
Qed.

(** Exactly which identifiers share their names: those in which every six bits make
    the same number, or the two that are written as the same letter. *)
Theorem C92_same_names_exact : forall base id1 id2, is_id id1 -> is_id id2 ->
  (map lower (data_path base id1) = map lower (data_path base id2) <-> forall i, i < 22 -> same_letter (six id1 i) (six id2 i))
  /\ (map lower (index_path base id1) = map lower (index_path base id2) <-> forall i, i < 22 -> same_letter (six id1 i) (six id2 i))
  /\ map lower (data_path base id1) <> map lower (index_path base id2).
Proof.
  intros base id1 id2 H1 H2. pose proof (id_chars id1 H1) as L1. pose proof (id_chars id2 H2) as L2.
  destruct (join_lower base) as (before & J). unfold data_path, index_path, data_file_name, index_file_name. rewrite !J, !map_app.
  assert (E : map lower (b64_encode id1) = map lower (b64_encode id2) <-> forall i, i < 22 -> same_letter (six id1 i) (six id2 i)).
  { rewrite (name_sixes id1 H1), (name_sixes id2 H2), !map_map, map_seq_ext.
    split; intros H i Hi; specialize (H i Hi); apply (lower_char _ _ (six_lt id1 i) (six_lt id2 i)); exact H. }
  split; [|split].
  - rewrite <- E. split; [intros Q|intros ->; reflexivity]. apply app_inv_head, app_same in Q; [tauto|]. rewrite !map_length. congruence.
  - rewrite <- E. split; [intros Q|intros ->; reflexivity]. apply app_inv_head, app_same in Q; [tauto|]. rewrite !map_length. congruence.
  - intros Q. apply app_inv_head, app_same in Q; [|rewrite !map_length; congruence]. destruct Q as [_ Q]. discriminate Q.
Qed.
Print Assumptions C92_same_names_exact.

(** * Two segments *)

Lemma lower_path e : event_path (in_lower_case e) = map lower (event_path e).
Proof. destruct e; reflexivity. Qed.

Lemma interleaved_map {A B} (f : A -> B) a b l : interleaved a b l -> interleaved (map f a) (map f b) (map f l).
Proof. induction 1; cbn [map]; constructor; assumption. Qed.

(** A directory that tells names apart shows the same file [f] if no other name of
    the effects becomes that of [f] in lower case. *)
Lemma caseless_same f l : Forall (fun e => map lower (event_path e) = map lower f -> event_path e = f) l ->
  forall (d d' : directory), d (map lower f) = d' f -> caseless_after d l f = directory_after d' l f.
Proof.
  unfold caseless_after, directory_after. induction l as [|e l IH]; intros F d d' E; cbn [map fold_left]; [exact E|].
  apply Forall_cons_iff in F. destruct F as [Fe F]. apply IH; [exact F|]. clear IH F l.
  destruct e as [g|g bs|g]; cbn [in_lower_case apply_effect event_path] in *; [| |exact E];
    (destruct (path_dec (map lower f) (map lower g)) as [Q|Q]; destruct (path_dec f g) as [Q'|Q']; try rewrite E; try reflexivity;
     [exfalso; apply Q'; symmetry; apply Fe; symmetry; exact Q|exfalso; apply Q; rewrite Q'; reflexivity]).
Qed.

(** A file that the effects create does not depend on what was there before. *)
Lemma created_fresh f l : In (FCreate f) l -> forall d d', directory_after d l f = directory_after d' l f.
Proof.
  intros I. apply in_split in I. destruct I as (a & b & ->). intros d d'. unfold directory_after. rewrite !fold_left_app. cbn [fold_left].
  set (d1 := fold_left apply_effect a d). set (d2 := fold_left apply_effect a d').
  assert (E : apply_effect d1 (FCreate f) f = apply_effect d2 (FCreate f) f) by (cbn [apply_effect]; destruct (path_dec f f); congruence).
  revert E. generalize (apply_effect d1 (FCreate f)) (apply_effect d2 (FCreate f)). clear. induction b as [|e b IH]; intros d d' E; cbn [fold_left]; [exact E|].
  apply IH. destruct e as [g|g bs|g]; cbn [apply_effect]; rewrite ?E; reflexivity.
Qed.

Section Two.
  Context (base : path) (p1 p2 : profile) (w1 w2 : world) (info1 info2 : segment_info) (ops1 ops2 : list seg_op) (l1 l2 : list fs_event).
  Let id1 := si_segment_id info1.
  Let id2 := si_segment_id info2.

  (** C92 for segments whose names do not become the same: each has the files it
      would have alone in a directory that tells upper from lower case, however
      their effects are mixed. *)
Theorem C92_kept_apart_partial : forall d l, is_id id1 -> is_id id2 ->
    segment_effects p1 w1 base info1 ops1 l1 -> segment_effects p2 w2 base info2 ops2 l2 -> interleaved l1 l2 l ->
    ~ (forall i, i < 22 -> same_letter (six id1 i) (six id2 i)) ->
    caseless_after d l (data_path base id1) = directory_after d l1 (data_path base id1)
    /\ caseless_after d l (index_path base id1) = directory_after d l1 (index_path base id1)
    /\ caseless_after d l (data_path base id2) = directory_after d l2 (data_path base id2)
    /\ caseless_after d l (index_path base id2) = directory_after d l2 (index_path base id2).
  Proof using.
    intros d l ID1 ID2 E1 E2 IL NS.
    destruct (segment_effects_log _ _ _ _ _ _ ID1 E1) as (r1 & R1 & F1). destruct (segment_effects_log _ _ _ _ _ _ ID2 E2) as (r2 & R2 & F2).
    fold id1 in R1, F1. fold id2 in R2, F2.
    destruct (C92_same_names_exact base id1 id2 ID1 ID2) as (D12 & I12 & X12). destruct (C92_same_names_exact base id2 id1 ID2 ID1) as (_ & _ & X21).
    destruct (C92_same_names_exact base id1 id1 ID1 ID1) as (_ & _ & X11). destruct (C92_same_names_exact base id2 id2 ID2 ID2) as (_ & _ & X22).
    assert (P1 : Forall (fun e => event_path e = data_path base id1 \/ event_path e = index_path base id1) l1).
    { rewrite R1. apply Forall_cons; [right; reflexivity|]. apply Forall_cons; [left; reflexivity|exact F1]. }
    assert (P2 : Forall (fun e => event_path e = data_path base id2 \/ event_path e = index_path base id2) l2).
    { rewrite R2. apply Forall_cons; [right; reflexivity|]. apply Forall_cons; [left; reflexivity|exact F2]. }
    assert (G : forall f la lb fa fb, interleaved la lb l -> In (FCreate f) la ->
       Forall (fun e => event_path e = f \/ event_path e = fa) la -> map lower fa <> map lower f ->
       Forall (fun e => map lower (event_path e) <> map lower f) lb -> fb = f -> caseless_after d l fb = directory_after d la fb).
    { intros f la lb fa fb I CR Pa Na Pb ->.
      transitivity (caseless_after d la f).
      - unfold caseless_after. eapply interleaved_dir; [apply interleaved_map; exact I| |reflexivity].
        rewrite Forall_map. eapply Forall_impl; [|exact Pb]. intros e He. cbn beta in *. rewrite lower_path. exact He.
      - transitivity (directory_after (fun g => d (map lower f)) la f).
        + apply caseless_same; [|reflexivity]. eapply Forall_impl; [|exact Pa]. intros e [H|H] Q; [exact H|]. exfalso. apply Na. rewrite <- H. exact Q.
        + apply created_fresh. exact CR. }
    assert (C1 : In (FCreate (data_path base id1)) l1 /\ In (FCreate (index_path base id1)) l1) by (rewrite R1; cbn [In]; auto).
    assert (C2 : In (FCreate (data_path base id2)) l2 /\ In (FCreate (index_path base id2)) l2) by (rewrite R2; cbn [In]; auto).
    assert (ND : map lower (data_path base id1) <> map lower (data_path base id2)) by (intros Q; apply NS, D12, Q).
    assert (NI : map lower (index_path base id1) <> map lower (index_path base id2)) by (intros Q; apply NS, I12, Q).
    assert (IL' := interleaved_sym _ _ _ IL).
    assert (SW : forall id (k : list fs_event), Forall (fun e => event_path e = data_path base id \/ event_path e = index_path base id) k ->
       Forall (fun e => event_path e = index_path base id \/ event_path e = data_path base id) k)
      by (intros id k; apply Forall_impl; intros e; tauto).
    split; [|split; [|split]]; (eapply G; [eassumption| | | | |reflexivity]).
    - apply C1.
    - exact P1.
    - intros Q. apply X11. symmetry. exact Q.
    - eapply Forall_impl; [|exact P2]. intros e [-> | ->] Q; [apply ND; symmetry; exact Q|]. apply X12. symmetry. exact Q.
    - apply C1.
    - apply SW, P1.
    - exact X11.
    - eapply Forall_impl; [|exact P2]. intros e [-> | ->] Q; [apply X21; exact Q|]. apply NI. symmetry. exact Q.
    - apply C2.
    - exact P2.
    - intros Q. apply X22. symmetry. exact Q.
    - eapply Forall_impl; [|exact P1]. intros e [-> | ->] Q; [apply ND; exact Q|]. apply X21. symmetry. exact Q.
    - apply C2.
    - apply SW, P2.
    - exact X22.
    - eapply Forall_impl; [|exact P1]. intros e [-> | ->] Q; [apply X12; exact Q|]. apply NI. exact Q.
  Qed.

  (** If the names do become the same, writing the second segment after the first
      leaves, under the names of both, what the second wrote and nothing of the
      first. *)
Theorem C92_replaced : forall d, is_id id1 -> is_id id2 ->
    segment_effects p1 w1 base info1 ops1 l1 -> segment_effects p2 w2 base info2 ops2 l2 ->
    (forall i, i < 22 -> same_letter (six id1 i) (six id2 i)) ->
    caseless_after d (l1 ++ l2) (data_path base id1) = directory_after d l2 (data_path base id2)
    /\ caseless_after d (l1 ++ l2) (index_path base id1) = directory_after d l2 (index_path base id2).
  Proof using.
    intros d ID1 ID2 E1 E2 SL.
    destruct (segment_effects_log _ _ _ _ _ _ ID2 E2) as (r2 & R2 & F2). fold id2 in R2, F2.
    destruct (C92_same_names_exact base id1 id2 ID1 ID2) as (D12 & I12 & _). apply D12 in SL as QD. apply I12 in SL as QI.
    destruct (C92_same_names_exact base id2 id2 ID2 ID2) as (_ & _ & X22).
    assert (P2 : Forall (fun e => event_path e = data_path base id2 \/ event_path e = index_path base id2) l2).
    { rewrite R2. apply Forall_cons; [right; reflexivity|]. apply Forall_cons; [left; reflexivity|exact F2]. }
    assert (G : forall f fa, In (FCreate f) l2 -> Forall (fun e => event_path e = f \/ event_path e = fa) l2 -> map lower fa <> map lower f ->
       directory_after d (map in_lower_case (l1 ++ l2)) (map lower f) = directory_after d l2 f).
    { intros f fa CR Pa Na. rewrite map_app. unfold directory_after at 1. rewrite fold_left_app. set (d1 := fold_left apply_effect _ d).
      transitivity (directory_after (fun g => d1 (map lower f)) l2 f).
      - apply (caseless_same f l2); [|reflexivity]. eapply Forall_impl; [|exact Pa]. intros e [H|H] Q; [exact H|]. exfalso. apply Na. rewrite <- H. exact Q.
      - apply created_fresh. exact CR. }
    unfold caseless_after. rewrite QD, QI. split.
    - apply (G _ (index_path base id2)); [rewrite R2; cbn [In]; auto|exact P2|intros Q; apply X22; symmetry; exact Q].
    - apply (G _ (data_path base id2)); [rewrite R2; cbn [In]; auto| |exact X22].
      eapply Forall_impl; [|exact P2]. intros e [H|H]; [right|left]; exact H.
  Qed.
End Two.
Print Assumptions C92_kept_apart_partial.
Print Assumptions C92_replaced.

(** An identifier that differs from that of [ex_info] in its first byte: its names
    begin with "a" instead of "A". *)
Definition ex_info3 : segment_info :=
  mksinfo [105; 2; 3; 4; 5; 6; 7; 8; 9; 10; 11; 12; 13; 14; 15; 255]%N [100]%N [116]%N 3 1000.

Lemma log_effects info ops : log_of info ops <> [] -> segment_effects Debug ex_world ex_base info ops (log_of info ops).
Proof.
  unfold segment_effects, log_of, run_from. destruct (segment_new ex_world ex_base info) as [w1 [sg|]] eqn:N; [|congruence].
  destruct (seg_run Debug w1 sg ops) as [[[w2 sg2] rs]|k|] eqn:R; try congruence. intros _.
  split; [reflexivity|]. split; [cbn; lia|]. exists w1, sg, w2, sg2, rs. auto.
Qed.

(** C92 is false: a segment was written and closed, then another one with another
    identifier is created.  All calls succeed, and the data file of the first is
    empty. *)
Theorem C92_kept_apart_refuted :
  ~ (forall d p1 w1 base info1 ops1 l1 p2 w2 info2 ops2 l2,
       is_id (si_segment_id info1) -> is_id (si_segment_id info2) -> si_segment_id info1 <> si_segment_id info2 ->
       segment_effects p1 w1 base info1 ops1 l1 -> segment_effects p2 w2 base info2 ops2 l2 ->
       caseless_after d (l1 ++ l2) (data_path base (si_segment_id info1)) = directory_after d l1 (data_path base (si_segment_id info1)))
  /\ match run_from Debug ex_world ex_base ex_info rs_ops, run_from Debug ex_world ex_base ex_info3 [] with
     | Some (w, _, rs), Some (w', _, rs') =>
         rs = [Ok tt; Ok tt; Ok tt; Ok tt] /\ rs' = []
         /\ option_map (@length N) (caseless_after (fun _ => None) (wd_log w) (data_path ex_base (si_segment_id ex_info))) = Some 198
         /\ caseless_after (fun _ => None) (wd_log w ++ wd_log w') (data_path ex_base (si_segment_id ex_info)) = Some []
     | _, _ => False end.
Proof.
  split.
  - intros H.
    assert (Q : caseless_after (fun _ => None) (log_of ex_info rs_ops ++ log_of ex_info3 []) (data_path ex_base (si_segment_id ex_info))
                = directory_after (fun _ => None) (log_of ex_info rs_ops) (data_path ex_base (si_segment_id ex_info))).
    { apply (H _ Debug ex_world ex_base ex_info rs_ops _ Debug ex_world ex_info3 []).
      - split; [reflexivity|repeat constructor].
      - split; [reflexivity|repeat constructor].
      - discriminate.
      - apply log_effects. vm_compute. discriminate.
      - apply log_effects. vm_compute. discriminate. }
    vm_compute in Q. discriminate Q.
  - vm_compute. repeat split.
Qed.
Print Assumptions C92_kept_apart_refuted.

(** Concrete: the names of these two become the same; those of [ex_info] and
    [ex_info2], which differ in the last bit, do not. *)
Example C92_witness :
  (forall i, i < 22 -> same_letter (six (si_segment_id ex_info) i) (six (si_segment_id ex_info3) i))
  /\ six (si_segment_id ex_info) 0 = 0%N /\ six (si_segment_id ex_info3) 0 = 26%N
  /\ ~ (forall i, i < 22 -> same_letter (six (si_segment_id ex_info) i) (six (si_segment_id ex_info2) i))
  /\ interleaved (log_of ex_info rs_ops) (log_of ex_info2 rs_ops) (zip (log_of ex_info rs_ops) (log_of ex_info2 rs_ops))
  /\ option_map (@length N) (caseless_after (fun _ => None) (zip (log_of ex_info rs_ops) (log_of ex_info2 rs_ops)) (data_path ex_base (si_segment_id ex_info))) = Some 198.
Proof.
  split.
  - intros i Hi. do 22 (destruct i as [|i]; [vm_compute; auto; fail|]). lia.
  - split; [reflexivity|]. split; [reflexivity|]. split; [|split; [apply zip_interleaved|vm_compute; reflexivity]].
    intros H. specialize (H 21 ltac:(lia)). vm_compute in H. destruct H as [H|[[_ H]|[_ H]]]; discriminate H.
Qed.
