(** Encoding a window of a fixed-width buffer to a block, and reading it back. *)
From Verif Require Import Base BaseProofs Spec SpecRows Varint VarintProofs Buffers Observe BitmapProofs BuffersProofs
  Rle RleProofs RleDecodeProofs RleTrackProofs Sink PrimEnc ReadBlock RowsProofs PropsRle.
Open Scope nat_scope.

Lemma le_length sz : forall v, length (le_bytes sz v) = sz.
Proof. induction sz as [|sz IH]; intros v; cbn; auto. Qed.

Lemma le_value_bytes sz : forall v, (v < 256 ^ N.of_nat sz)%N -> le_value (le_bytes sz v) = v.
Proof.
  induction sz as [|sz IH]; intros v H; cbn [le_bytes le_value].
  - change (256 ^ N.of_nat 0)%N with 1%N in H. lia.
  - rewrite IH.
    + pose proof (N.div_mod v 256). lia.
    + replace (N.of_nat (S sz)) with (N.succ (N.of_nat sz)) in H by lia. rewrite N.pow_succ_r' in H.
      apply N.div_lt_upper_bound; lia.
Qed.

Lemma bytes_length sz vs : length (to_byte_slice sz vs) = sz * length vs.
Proof. induction vs as [|v vs IH]; cbn; [lia|]. rewrite app_length, le_length. unfold to_byte_slice in IH. lia. Qed.

Lemma pieces_bytes sz vs : pieces (length vs) sz (to_byte_slice sz vs) = map (le_bytes sz) vs.
Proof.
  induction vs as [|v vs IH]; cbn [length pieces map]; [reflexivity|].
  change (to_byte_slice sz (v :: vs)) with (le_bytes sz v ++ to_byte_slice sz vs).
  pose proof (firstn_app_exact (le_bytes sz v) (to_byte_slice sz vs)) as E1.
  pose proof (skipn_app_exact (le_bytes sz v) (to_byte_slice sz vs)) as E2.
  rewrite le_length in E1, E2. rewrite E1, E2, IH. reflexivity.
Qed.

Lemma set_positions_ge bits : forall from, Forall (fun q => from <= q)%N (set_positions from bits).
Proof.
  induction bits as [|b bits IH]; intros from; cbn [set_positions]; [constructor|].
  destruct b; [constructor; [lia|]|]; (eapply Forall_impl; [|apply IH]); cbn; intros; lia.
Qed.

Lemma place_rows_back {T} (R : list (option T)) : forall from, ends_some R ->
  place_rows from (set_positions from (validity_of R)) (somes R) = R.
Proof.
  induction R as [|x R IH]; intros from HE; [reflexivity|].
  assert (HE' : ends_some R).
  { destruct HE as [|(r & v & E)]; [discriminate|]. destruct r as [|y r]; cbn in E; injection E as _ ->.
    - left; reflexivity.
    - right. eauto. }
  destruct x as [v|]; cbn [validity_of map is_some set_positions somes place_rows].
  - replace (from - from)%N with 0%N by lia. cbn [N.to_nat repeat app]. f_equal. apply IH. exact HE'.
  - fold (validity_of R). specialize (IH (from + 1)%N HE').
    assert (HN : R <> []).
    { intros ->. destruct HE as [|(r & v & E)]; [discriminate|]. destruct r as [|? [|? ?]]; discriminate. }
    pose proof (nonempty_num R HE' HN) as HN2. unfold num_vals in HN2.
    pose proof (set_positions_ge (validity_of R) (from + 1)%N) as HG.
    destruct (set_positions (from + 1)%N (validity_of R)) as [|q qs] eqn:EQ.
    { cbn [place_rows] in IH. congruence. }
    destruct (somes R) as [|v vs] eqn:ES; [cbn in HN2; lia|].
    cbn [place_rows] in *. apply Forall_inv in HG.
    replace (N.to_nat (q - from)) with (S (N.to_nat (q - (from + 1)))) by lia.
    cbn [repeat app]. rewrite IH. reflexivity.
Qed.

Lemma positions_count bits : forall from, length (set_positions from bits) = count_true bits.
Proof.
  induction bits as [|b bits IH]; intros from; [reflexivity|]. rewrite count_true_cons.
  cbn [set_positions]. destruct b; cbn [length]; rewrite IH; cbn; lia.
Qed.

(** The bytes of a validity. *)
Definition validity_bytes (bits : list bool) : list N :=
  match rle_encode rle_new bits with Ret b => b | _ => [] end.

Lemma validity_bytes_ok bits : (N.of_nat (length bits) <= 2 ^ 32)%N ->
  rle_encode rle_new bits = Ret (validity_bytes bits).
Proof.
  intros H. unfold validity_bytes. destruct (encode_frames bits H) as (fs & k & E & _). rewrite E. reflexivity.
Qed.

(** Reading back the rows from values and validity. *)
Lemma read_rows_back {T} p nl (R : list (option T)) : rows_allowed nl R -> ends_some R ->
  (nl = true -> (N.of_nat (length R) <= 2 ^ 32 - 8)%N) ->
  read_rows p nl (somes R) (if nl then validity_bytes (validity_of R) else []) = Ret (Ok R).
Proof.
  intros HA HE HL. unfold read_rows. destruct nl.
  - specialize (HL eq_refl). rewrite (decode_encoding p (validity_of R)).
    + rewrite repeat_length, count_validity, Nat.leb_refl, bind_ret. cbn [fst snd]. rewrite Nat.eqb_refl.
      rewrite skipn_all2 by (rewrite repeat_length; lia). rewrite app_nil_r, place_rows_back by exact HE. reflexivity.
    + rewrite validity_length. exact HL.
    + apply validity_bytes_ok. rewrite validity_length. change (2 ^ 32 - 8)%N with 4294967288%N in HL.
      change (2 ^ 32)%N with 4294967296%N. lia.
  - destruct HA as [|HA]; [discriminate|]. rewrite <- all_some_map by exact HA. reflexivity.
Qed.

(** The block with the rows [R]. *)
Definition prim_block (sz : nat) (nl : bool) (R : list (option N)) : list N :=
  varint_bytes (N.of_nat (sz * num_vals R)) ++ to_byte_slice sz (somes R)
  ++ (if nl then validity_bytes (validity_of R) else []).

Lemma read_prim_block p sz nl R : 0 < sz -> rows_allowed nl R -> ends_some R ->
  (N.of_nat (length R) < 2 ^ 32)%N -> (nl = true -> (N.of_nat (length R) <= 2 ^ 32 - 8)%N) -> (N.of_nat sz < 2 ^ 31)%N ->
  Forall (fun v => v < 256 ^ N.of_nat sz)%N (somes R) ->
  read_primitive_block p sz nl (prim_block sz nl R) = Ret (Ok R).
Proof.
  intros Hs HA HE HL HL8 Hz HV. unfold read_primitive_block, prim_block.
  pose proof (somes_length_le R) as HC. fold (num_vals R) in HC.
  change (2 ^ 32)%N with 4294967296%N in HL. change (2 ^ 31)%N with 2147483648%N in Hz.
  rewrite decode_varint_bytes by (unfold u64_lim; nia). rewrite bind_ret. rewrite Nat2N.id.
  set (V := varint_bytes _). set (D := to_byte_slice sz (somes R)). set (Y := if nl then _ else _).
  assert (LD : length D = sz * num_vals R) by apply bytes_length.
  rewrite slice_ok by (rewrite ?app_length; lia). rewrite bind_ret.
  replace (length V + sz * num_vals R - length V) with (length D) by lia.
  rewrite skipn_app_exact, firstn_app_exact.
  replace (sz * num_vals R) with (num_vals R * sz) by lia.
  rewrite Nat.mod_mul, Nat.div_mul by lia. cbn [Nat.eqb].
  unfold num_vals at 1. unfold D. rewrite pieces_bytes, map_map.
  rewrite (map_ext_in _ id) by (intros v Hv; apply le_value_bytes; rewrite Forall_forall in HV; auto). rewrite map_id.
  replace (skipn (length V + num_vals R * sz) (V ++ to_byte_slice sz (somes R) ++ Y)) with Y.
  - apply read_rows_back; auto.
  - rewrite app_assoc. replace (length V + num_vals R * sz) with (length (V ++ D)) by (rewrite app_length; lia).
    fold D. rewrite skipn_app_exact. reflexivity.
Qed.

Lemma encode_primitive_ok sz buf nl before R after rle :
  pb_holds buf nl (before ++ R ++ after) -> ends_some R ->
  (N.of_nat (length R) <= 2 ^ 32)%N -> (N.of_nat (sz * num_vals R) < u64_lim)%N ->
  exists rle', encode_primitive_buffer sz buf (num_vals before) (num_vals before + num_vals R) (length before) rle
    = Ret (prim_block sz nl R, rle',
           if nl then (length before + length R, length before + length R) else (num_vals R, 0)).
Proof.
  intros [HV HS] HE HL Hz. unfold encode_primitive_buffer, prim_block.
  replace (num_vals before + num_vals R - num_vals before) with (num_vals R) by lia.
  rewrite put_varint_ok by exact Hz. rewrite bind_ret. cbn [app].
  assert (SL : slice (pb_values buf) (num_vals before) (num_vals before + num_vals R) = Ret (somes R)).
  { rewrite HV, !somes_app, slice_ok by (rewrite ?app_length; unfold num_vals; lia).
    f_equal. unfold num_vals. rewrite skipn_app_exact.
    replace (length (somes before) + length (somes R) - length (somes before)) with (length (somes R)) by lia.
    apply firstn_app_exact. }
  rewrite SL, bind_ret. destruct (pb_validity buf) as [bm|]; cbn [validity_shows] in HS.
  - destruct HS as [-> HR].
    rewrite (put_from_puts _ _ _ _ _ _ HR (row_window before R after HE)).
    pose proof (C18_rle_clear rle (validity_of R)) as HC. unfold rle_encode at 1 in HC.
    rewrite validity_bytes_ok in HC by (rewrite validity_length; exact HL).
    destruct (rle_puts (rle_clear rle) (validity_of R)) as [e1| |] eqn:E1; cbn [bind] in HC |- *; try discriminate.
    cbn [fst snd]. destruct (rle_flush e1) as [e2| |]; cbn [bind] in HC |- *; try discriminate.
    injection HC as <-. exists e2. rewrite validity_length, app_assoc. reflexivity.
  - destruct HS as [-> HF]. exists rle. rewrite app_nil_r. reflexivity.
Qed.
