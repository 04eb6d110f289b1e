(** Properties C33, C36 and C38: chunks, blocks and held back data of binary
    columns (raw/binary_enc.rs). *)
From Verif Require Import Base BaseProofs Spec SpecRows SpecBin Varint VarintProofs Buffers Observe BitmapProofs BuffersProofs
  Rle RleProofs Offsets OffsetsProofs Sink BinEnc ObserveEnc ReadBlock ReadBinBlock RowsProofs BlockProofs PrimRunProofs BinBlockProofs
  BinEncProofs BinRunProofs.
Open Scope nat_scope.

(** ** C38: chunks *)

(** The position where a chunk of at least [m] bytes from item [s] has to end:
    the first one with that many bytes since [s], or the end of the buffer. *)
Definition chunk_end (items : list (list N)) (s : nat) (m : N) (e : nat) : Prop :=
  s <= e <= length items
  /\ (forall j, s <= j < e -> (N.of_nat (length (concat (firstn (j - s) (skipn s items)))) < m)%N)
  /\ ((m <= N.of_nat (length (concat (firstn (e - s) (skipn s items)))))%N \/ e = length items).

(** The chunk of the items [s .. e). *)
Definition chunk_of (items : list (list N)) (s e : nat) : bin_chunk :=
  let off i := N.of_nat (length (concat (firstn i items))) in
  mk_bchunk s e (off s) (off e) (off e - off s) (N.of_nat (e - s)).

Lemma off_diff items s q : s + q <= length items ->
  (N.of_nat (length (concat (firstn (s + q) items))) = N.of_nat (cbytes (firstn s items)) + N.of_nat (cbytes (firstn q (skipn s items))))%N.
Proof. intros H. rewrite firstn_skipn_add. fold (cbytes (firstn s items ++ firstn q (skipn s items))). rewrite cbytes_app. lia. Qed.

Lemma chunk_end_fill items s m e : s <= length items -> chunk_end items s m e ->
  fill m (skipn s items) = Some (e - s) \/ (fill m (skipn s items) = None /\ e = length items).
Proof.
  intros Hs (H1 & H2 & H3). destruct (N.leb_spec m (N.of_nat (length (concat (firstn (e - s) (skipn s items)))))) as [L|L].
  - left. apply fill_unique; [rewrite skipn_length; lia|exact L|]. intros j Hj. specialize (H2 (s + j) ltac:(lia)).
    replace (s + j - s) with j in H2 by lia. exact H2.
  - right. destruct H3 as [H3|H3]; [lia|]. split; [|exact H3]. apply fill_none_iff. subst e.
    rewrite <- skipn_length, firstn_all in L. exact L.
Qed.

(** C38 from the start of a buffer: the chunk is right. *)
Theorem C38_chunk_from_start_partial :
  forall p nl buf rows m e, bb_holds buf nl rows -> (N.of_nat (length (bb_data buf)) < 2 ^ 32)%N ->
  chunk_end (somes rows) 0 m e -> be_chunk p buf 0 m = Ret (chunk_of (somes rows) 0 e).
Proof.
  intros p nl buf rows m e (HD & HO & _) HL HC. change (2 ^ 32)%N with 4294967296%N in HL.
  assert (HL2 : (N.of_nat (cbytes (somes rows)) <= u32_max)%N) by (rewrite HD in HL; unfold u32_max, cbytes; lia).
  rewrite (be_chunk_ok p buf (somes rows) 0 m HO ltac:(lia) HL2). pose proof HC as ((_ & HC1) & _). cbn [firstn].
  change (N.of_nat (cbytes [])) with 0%N. cbn [skipn] in *. cbn zeta.
  apply chunk_end_fill in HC; [|lia]. cbn [skipn] in HC. rewrite Nat.sub_0_r in HC. unfold chunk_of. cbn [firstn concat length].
  destruct HC as [->|[-> ->]].
  - rewrite sub64_ok by lia. rewrite bind_ret, Nat.sub_0_r. do 2 f_equal; unfold cbytes; lia.
  - rewrite firstn_all, Nat.sub_0_r. do 2 f_equal; unfold cbytes; lia.
Qed.
Print Assumptions C38_chunk_from_start_partial.

(** C38 from a later position [s], exactly.  If no chunk of the wanted size is
    left the chunk is right.  If it has to end at [e], its data and size are
    right, but it claims to end at item [e - s] and to have [e - 2 * s] items; if
    that is negative a build with overflow checks panics and others wrap. *)
Theorem C38_chunk_exact :
  forall p nl buf rows s m e, bb_holds buf nl rows -> (N.of_nat (length (bb_data buf)) < 2 ^ 32)%N ->
  s <= length (somes rows) -> chunk_end (somes rows) s m e ->
  let c := chunk_of (somes rows) s e in
  be_chunk p buf s m =
    if (bc_size c <? m)%N then Ret c
    else if 2 * s <=? e then Ret (mk_bchunk s (e - s) (bc_start_off c) (bc_end_off c) (bc_size c) (N.of_nat (e - 2 * s)))
    else match p with
         | Debug => Panic POverflow
         | Release => Ret (mk_bchunk s (e - s) (bc_start_off c) (bc_end_off c) (bc_size c) (2 ^ 64 - N.of_nat (2 * s - e)))
         end.
Proof.
  intros p nl buf rows s m e (HD & HO & _) HL Hs HC c. change (2 ^ 32)%N with 4294967296%N in HL.
  set (items := somes rows) in *.
  assert (HL2 : (N.of_nat (cbytes items) <= u32_max)%N) by (rewrite HD in HL; unfold u32_max, cbytes; lia).
  rewrite (be_chunk_ok p buf items s m HO Hs HL2). pose proof HC as ((HC0 & HC1) & _). cbn zeta.
  assert (EO : (N.of_nat (length (concat (firstn e items)))
     = N.of_nat (cbytes (firstn s items)) + N.of_nat (cbytes (firstn (e - s) (skipn s items))))%N).
  { rewrite <- off_diff by lia. replace (s + (e - s)) with e by lia. reflexivity. }
  unfold c, chunk_of. cbn [bc_size bc_start_off bc_end_off]. rewrite EO.
  change (length (concat (firstn s items))) with (cbytes (firstn s items)).
  replace (N.of_nat (cbytes (firstn s items)) + N.of_nat (cbytes (firstn (e - s) (skipn s items))) - N.of_nat (cbytes (firstn s items)))%N
    with (N.of_nat (cbytes (firstn (e - s) (skipn s items)))) by lia.
  apply chunk_end_fill in HC; [|exact Hs]. destruct HC as [EF|[EF ->]]; rewrite EF.
  - apply fill_some in EF. destruct EF as (_ & EF & _).
    destruct (N.ltb_spec (N.of_nat (cbytes (firstn (e - s) (skipn s items)))) m); [lia|].
    assert (LI : (N.of_nat s < 2 ^ 64)%N \/ (2 ^ 64 <= N.of_nat s)%N) by lia.
    unfold sub64, usub. destruct (N.leb_spec (N.of_nat s) (N.of_nat (e - s))), (Nat.leb_spec (2 * s) e); try lia.
    + rewrite bind_ret. do 2 f_equal. lia.
    + destruct p; [reflexivity|]. cbn [bind]. do 2 f_equal. unfold u64_lim. change (2 ^ 64)%N with 18446744073709551616%N. lia.
  - apply fill_none in EF. replace (length items - s) with (length (skipn s items)) by (rewrite skipn_length; lia). rewrite firstn_all.
    destruct (N.ltb_spec (N.of_nat (cbytes (skipn s items))) m); [|lia]. reflexivity.
Qed.
Print Assumptions C38_chunk_exact.

Example C38_witness :
  match bb_append_rows (bb_new false) [Some [1; 2]; Some [3]; Some [4; 5; 6]; Some []; Some [7]]%N with
  | Ret buf =>
      be_chunk Debug buf 0 3 = Ret (mk_bchunk 0 2 0 3 3 2)
      /\ chunk_end [[1; 2]; [3]; [4; 5; 6]; []; [7]]%N 0 3 2
      /\ be_chunk Debug buf 3 3 = Ret (mk_bchunk 3 5 6 7 1 2)
  | _ => False end.
Proof.
  assert (X : chunk_end [[1; 2]; [3]; [4; 5; 6]; []; [7]]%N 0 3 2).
  { split; [cbn; lia|]. split; [|left; cbn; lia]. intros j Hj.
    assert (j = 0 \/ j = 1) as [->| ->] by lia; cbn; lia. }
  cbn [bb_append_rows]. revert X. generalize (chunk_end [[1; 2]; [3]; [4; 5; 6]; []; [7]]%N 0 3 2). intros P X.
  vm_compute. auto.
Qed.

(** C38 is false: from item 2 of six items of two bytes, a chunk of four bytes
    has to end at item 4, but the result ends at item 2 and is empty; from item
    3 with eight bytes left there is a panic. *)
Theorem C38_chunk_refuted :
  ~ (forall p nl buf rows s m e, bb_holds buf nl rows -> (N.of_nat (length (bb_data buf)) < 2 ^ 32)%N ->
       s <= length (somes rows) -> chunk_end (somes rows) s m e -> be_chunk p buf s m = Ret (chunk_of (somes rows) s e)).
Proof.
  intros H. set (rows := repeat (Some [1; 2]%N) 6).
  destruct (bb_new_rows false rows) as (b & E & D & O & V); [right; repeat constructor|vm_compute; discriminate|].
  assert (HH : bb_holds b false rows).
  { split; [exact D|]. split; [exact O|]. eapply val_rep_shows; [|exact V]. right; repeat constructor. }
  specialize (H Debug false b rows 2 4%N 4 HH ltac:(rewrite D; reflexivity) ltac:(cbn; lia)).
  assert (HC : chunk_end (somes rows) 2 4 4).
  { split; [cbn; lia|]. split; [|left; cbn; lia]. intros j Hj.
    assert (j = 2 \/ j = 3) as [->| ->] by lia; cbn; lia. }
  specialize (H HC). cbn in E. injection E as <-. discriminate H.
Qed.
Print Assumptions C38_chunk_refuted.

(** ** C36: blocks *)

(** [block] is laid out as documented for the rows [R], except that its data may
    go on with [extra]. *)
Definition layout (p : profile) (nl : bool) (R : list row) (extra block : list N) : Prop :=
  exists size padded_lens lens validity,
    put_varint [] (N.of_nat (length (concat (somes R)) + length extra)) = Ret size
    /\ off_encode p (map (fun v => N.of_nat (length v)) (somes R)) [] = Ret (padded_lens, lens)
    /\ (if nl then rle_encode rle_new (validity_of R) = Ret validity else validity = [])
    /\ block = size ++ concat (somes R) ++ extra ++ lens ++ validity.

Lemma bin_block_layout p nl R extra : 1 <= num_vals R <= 128 -> (N.of_nat (length R) <= 2 ^ 32)%N ->
  (N.of_nat (bytes_of R + length extra) < u64_lim)%N ->
  layout p nl R extra (bin_block nl R extra).
Proof.
  intros HN HL HB. unfold layout, bin_block.
  exists (varint_bytes (N.of_nat (bytes_of R + length extra))), (padded (map (fun v : list N => N.of_nat (length v)) (somes R))),
    (lens_bytes (somes R)), (if nl then validity_bytes (validity_of R) else []).
  split; [rewrite put_varint_ok by exact HB; reflexivity|]. split.
  - rewrite off_encode_ok by (rewrite map_length; exact HN). reflexivity.
  - split; [|reflexivity]. destruct nl; [|reflexivity]. apply validity_bytes_ok. rewrite validity_length. exact HL.
Qed.

(** The first [B] bytes of data: [w] is the shortest prefix of the rows with at
    least [B] bytes. *)
Definition first_chunk (B : N) (b w : list row) : Prop :=
  exists w' v after, w = w' ++ [Some v] /\ b = w ++ after
    /\ (N.of_nat (length (concat (somes w'))) < B <= N.of_nat (length (concat (somes w))))%N.

Lemma take_vals_app {T} (w after : list (option T)) : ends_some w -> take_vals (num_vals w) (w ++ after) = w.
Proof.
  induction w as [|[v|] w IH]; intros HE.
  - destruct after as [|[|] ?]; reflexivity.
  - cbn [num_vals somes length app take_vals]. unfold num_vals in *. cbn [somes length]. rewrite IH; [reflexivity|].
    destruct HE as [|(r & x & E)]; [discriminate|]. destruct r as [|y r]; inversion E; subst; [left; reflexivity|right; eauto].
  - assert (HE' : ends_some w /\ w <> []).
    { destruct HE as [|(r & x & E)]; [discriminate|]. destruct r as [|y r]; inversion E; subst.
      split; [right; eauto|destruct r; discriminate]. }
    destruct HE' as [HE1 HE2]. pose proof (nonempty_num w HE1 HE2) as HP. specialize (IH HE1).
    unfold num_vals in *. cbn [somes app take_vals]. destruct (length (somes w)) as [|k]; [lia|]. rewrite IH. reflexivity.
Qed.

Lemma first_chunk_fill B b w : (0 < B)%N -> first_chunk B b w -> fill B (somes b) = Some (num_vals w) /\ take_vals (num_vals w) b = w.
Proof.
  intros HB (w' & v & after & -> & -> & H1 & H2). split.
  - rewrite <- app_assoc, !somes_app in *. cbn [somes app] in *. rewrite num_vals_app. unfold num_vals at 2. cbn [somes length].
    apply fill_unique.
    + rewrite app_length. cbn [length]. unfold num_vals. lia.
    + replace (somes w' ++ v :: somes after) with ((somes w' ++ [v]) ++ somes after) by (rewrite <- app_assoc; reflexivity).
      rewrite firstn_app_len by (rewrite app_length; unfold num_vals; cbn; lia). exact H2.
    + intros j Hj. rewrite firstn_app. unfold num_vals in Hj. replace (j - length (somes w')) with 0 by lia. cbn [firstn]. rewrite app_nil_r.
      pose proof (f_equal cbytes (firstn_skipn j (somes w'))) as E. rewrite cbytes_app in E. unfold cbytes in *. lia.
  - apply take_vals_app. right. eauto.
Qed.

(** C36 for the first chunk of a buffer given to an encoder that holds nothing
    back: it is written, if it can be written at all, under the number of its
    last row and laid out as documented.  Statement over any sink that accepts
    the first block. *)
Theorem C36_first_block :
  forall p B nl b w rest blocks res, (0 < B)%N ->
  Forall (rows_allowed nl) (b :: rest) -> Forall (fun r => B + N.of_nat (length (concat (somes r))) < 2 ^ 32)%N (b :: rest) ->
  (N.of_nat (length (concat (b :: rest))) <= 2 ^ 32 - 2)%N ->
  first_chunk B b w ->
  be_column_rows p B nl (b :: rest) = Ret (blocks, res) ->
  exists block more, blocks = (N.of_nat (length w) - 1, block)%N :: more /\ layout p nl w [] block.
Proof.
  intros p B nl b w rest blocks res HB HA HF HL HW HE. pose proof (first_chunk_fill B b w HB HW) as [W1 W2].
  change (2 ^ 32)%N with 4294967296%N in HF.
  assert (HF2 : Forall (fun r => B + N.of_nat (bytes_of r) <= u32_max)%N (b :: rest)).
  { eapply Forall_impl; [|exact HF]. unfold u32_max, bytes_of. cbn. intros; lia. }
  pose proof (be_column_rows_ok p B nl (b :: rest) HB HA HF2 HL) as BC. cbn zeta in BC.
  assert (X : exists more, fst (bin_blocks p nl B (b :: rest)) = mk_item (length w) w [] :: more).
  { unfold bin_blocks. cbn [bin_run bin_step bin_cut]. rewrite W1. pose proof (fill_pos _ _ _ W1 HB) as FP.
    destruct (Nat.leb_spec (num_vals w) 0); [lia|]. rewrite Nat.sub_0_r, W2. cbn [Nat.add firstn concat]. cbn zeta.
    replace (if nl then length w else length w) with (length w) by (destruct nl; reflexivity).
    destruct (snd (bin_cut _ _ _ _ _ _ _)); cbn [fst snd]; [destruct (snd (snd (bin_run _ _ _ _ _ _)))|]; cbn [fst app]; eexists; reflexivity. }
  destruct X as (more & EM). rewrite EM in BC. destruct (writable 0 _) eqn:EW.
  2:{ destruct BC as [k BC]. rewrite BC in HE. discriminate. }
  rewrite BC in HE. destruct (snd (bin_blocks p nl B (b :: rest))); [discriminate|]. injection HE as <- <-.
  cbn [blabelled it_count it_rows it_extra]. rewrite N.add_0_l. eexists. eexists. split; [reflexivity|].
  unfold writable in EW. cbn [forallb it_rows] in EW. apply andb_true_iff in EW. destruct EW as [EW _].
  apply andb_true_iff in EW. destruct EW as [EW _]. apply Nat.leb_le in EW.
  apply Forall_cons_iff in HF2. destruct HF2 as [HF2 _].
  pose proof (take_length (num_vals w) b) as TL. rewrite W2 in TL. pose proof (bytes_take_drop (num_vals w) b) as TB. rewrite W2 in TB.
  cbn [concat] in HL. rewrite app_length in HL. change (2 ^ 32 - 2)%N with 4294967294%N in HL.
  apply bin_block_layout.
  - pose proof (fill_pos _ _ _ W1 HB). lia.
  - change (2 ^ 32)%N with 4294967296%N. lia.
  - cbn [length]. unfold u64_lim, u32_max in *. lia.
Qed.
Print Assumptions C36_first_block.

(** With nothing cleared before, held back rows look as they are. *)
Lemma seen_fresh nl (R : list row) : ends_some R -> seen nl [] R = R.
Proof.
  intros HE. unfold seen. destruct nl; [|reflexivity].
  replace (map _ (seq 0 (length R))) with (validity_of R).
  - destruct HE as [->|(r & v & ->)]; [reflexivity|]. induction r as [|[x|] r IH]; cbn [app validity_of map somes place is_some] in *; [reflexivity| |].
    + f_equal. exact IH.
    + replace (somes (r ++ [Some v])) with (somes r ++ [v]) in * by (rewrite somes_app; reflexivity).
      destruct (somes r ++ [v]) eqn:E; [destruct (somes r); discriminate|]. f_equal. exact IH.
  - transitivity (map (fun i => nth i (validity_of R) false) (seq 0 (length (validity_of R)))).
    + symmetry. apply nth_ext with (d := false) (d' := false); [rewrite map_length, seq_length; reflexivity|].
      rewrite map_length, seq_length. intros i Hi. rewrite (nth_indep _ _ (nth 0 (validity_of R) false)) by (rewrite map_length, seq_length; exact Hi).
      rewrite (map_nth (fun i => nth i (validity_of R) false)), seq_nth by exact Hi. reflexivity.
    + rewrite validity_length. apply map_ext. intros i. unfold dirty. cbn [existsb]. rewrite andb_false_r, orb_false_r. reflexivity.
Qed.

(** C36 for rows held back until the flush: a buffer with less data than a block
    gives one block, up to its last non-null row. *)
Theorem C36_flush_block :
  forall p B nl b R nulls, (0 < B)%N -> rows_allowed nl b ->
  (B + N.of_nat (length (concat (somes b))) < 2 ^ 32)%N -> (N.of_nat (length b) <= 2 ^ 32 - 2)%N ->
  (N.of_nat (length (concat (somes b))) < B)%N ->
  b = R ++ repeat None nulls -> (exists R' v, R = R' ++ [Some v]) -> length (somes R) <= 128 ->
  exists block, be_column_rows p B nl [b] = Ret ([(N.of_nat (length R) - 1, block)]%N, Ok tt) /\ layout p nl R [] block.
Proof.
  intros p B nl b R nulls HB HA HF HL HS Eb HR HN. change (2 ^ 32)%N with 4294967296%N in HF.
  change (2 ^ 32 - 2)%N with 4294967294%N in HL.
  assert (HF2 : Forall (fun r => B + N.of_nat (bytes_of r) <= u32_max)%N [b]).
  { constructor; [|constructor]. unfold u32_max, bytes_of. lia. }
  pose proof (be_column_rows_ok p B nl [b] HB ltac:(constructor; [exact HA|constructor]) HF2) as BC.
  unfold sum_len in BC. cbn [concat] in BC. rewrite app_nil_r in BC. specialize (BC HL). cbn zeta in BC.
  assert (SN : forall m, somes (repeat (@None (list N)) m) = []) by (induction m; auto).
  assert (SR : somes b = somes R) by (rewrite Eb, somes_app, SN; apply app_nil_r).
  assert (HE : ends_some R) by (right; exact HR).
  assert (TR : trim b = R) by (unfold trim, num_vals; rewrite SR; rewrite Eb; apply take_vals_app; exact HE).
  assert (RN : R <> []) by (destruct HR as (R' & v & ->); destruct R'; discriminate).
  pose proof (nonempty_num R HE RN) as NP.
  assert (EI : bin_blocks p nl B [b] = ([mk_item (length R) R []], None)).
  { unfold bin_blocks. cbn [bin_run bin_step bin_cut].
    replace (fill B (somes b)) with (@None nat) by (symmetry; apply fill_none_iff; exact HS). cbn [fst snd app]. rewrite TR.
    pose proof (seen_fresh nl R HE) as ESeen.
    unfold bin_last. destruct R as [|x R0]; [congruence|]. rewrite ESeen. reflexivity. }
  rewrite EI in BC. cbn [fst snd] in BC. unfold writable in BC. cbn [forallb it_rows map it_count total fold_right] in BC.
  pose proof (f_equal (@length _) Eb) as LB. rewrite app_length in LB.
  destruct (Nat.leb_spec (num_vals R) 128) as [_|X]; [|unfold num_vals in X; lia]. cbn [andb] in BC.
  destruct (N.leb_spec (0 + (N.of_nat (length R) + 0)) u32_max) as [_|X]; [|unfold u32_max in X; lia].
  cbn [blabelled it_count it_rows it_extra] in BC. rewrite N.add_0_l in BC. eexists. split; [exact BC|]. apply bin_block_layout; [split; [exact NP|exact HN]|change (2 ^ 32)%N with 4294967296%N; clear -LB HL; lia|].
  unfold bytes_of. rewrite <- SR. cbn [length]. unfold u64_lim. lia.
Qed.
Print Assumptions C36_flush_block.

(** C36 for held back rows that a later buffer completes: rows [R] were held back
    from the first buffer, and the rows [w] of the second are just enough to
    reach the block size. *)
Theorem C36_completed_block :
  forall p B nl b1 R nulls b2 w' v after rest blocks res, (0 < B)%N ->
  let w := w' ++ [Some v] in
  b1 = R ++ repeat None nulls -> (exists R' u, R = R' ++ [Some u]) -> b2 = w ++ after ->
  (N.of_nat (length (concat (somes (R ++ w')))) < B <= N.of_nat (length (concat (somes (R ++ w)))))%N ->
  Forall (rows_allowed nl) (b1 :: b2 :: rest) ->
  Forall (fun r => B + N.of_nat (length (concat (somes r))) < 2 ^ 32)%N (b1 :: b2 :: rest) ->
  (N.of_nat (length (concat (b1 :: b2 :: rest))) <= 2 ^ 32 - 2)%N ->
  be_column_rows p B nl (b1 :: b2 :: rest) = Ret (blocks, res) ->
  exists block more, blocks = (N.of_nat (length (R ++ w)) - 1, block)%N :: more /\ layout p nl (R ++ w) [] block.
Proof.
  intros p B nl b1 R nulls b2 w' v after rest blocks res HB w E1 HR E2 [HW1 HW2] HA HF HL HE.
  change (2 ^ 32)%N with 4294967296%N in HF.
  assert (HF2 : Forall (fun r => B + N.of_nat (bytes_of r) <= u32_max)%N (b1 :: b2 :: rest)).
  { eapply Forall_impl; [|exact HF]. unfold u32_max, bytes_of. cbn. intros; lia. }
  pose proof (be_column_rows_ok p B nl (b1 :: b2 :: rest) HB HA HF2 HL) as BC. cbn zeta in BC.
  assert (SN : forall m, somes (repeat (@None (list N)) m) = []) by (induction m; auto).
  assert (SR : somes b1 = somes R) by (rewrite E1, somes_app, SN; apply app_nil_r).
  assert (HEn : ends_some R) by (right; exact HR).
  assert (TR : trim b1 = R) by (unfold trim, num_vals; rewrite SR; rewrite E1; apply take_vals_app; exact HEn).
  assert (RN : R <> []) by (destruct HR as (R' & u & ->); destruct R'; discriminate).
  change (length (concat (somes (R ++ w')))) with (bytes_of (R ++ w')) in HW1. change (length (concat (somes (R ++ w)))) with (bytes_of (R ++ w)) in HW2.
  rewrite bytes_app in HW1, HW2.
  assert (W12 : fill (B - N.of_nat (bytes_of R)) (somes b2) = Some (num_vals w) /\ take_vals (num_vals w) b2 = w).
  { apply (first_chunk_fill (B - N.of_nat (bytes_of R)) b2 w); [lia|]. exists w', v, after. split; [reflexivity|]. split; [exact E2|].
    unfold bytes_of in *. lia. }
  destruct W12 as [W1 W2].
  assert (EW : ends_some (R ++ w)) by (apply ends_app; [right; unfold w; eauto|unfold w; destruct w'; discriminate]).
  assert (X : exists more, fst (bin_blocks p nl B (b1 :: b2 :: rest)) = mk_item (length (R ++ w)) (R ++ w) [] :: more).
  { unfold bin_blocks. cbn [bin_run bin_step bin_cut].
    replace (fill B (somes b1)) with (@None nat) by (symmetry; apply fill_none_iff; rewrite SR; unfold bytes_of, cbytes in *; lia).
    cbn [fst snd]. rewrite TR. destruct R as [|x R0]; [congruence|]. unfold bin_step. cbv iota. rewrite W1. cbv zeta. rewrite W2.
    rewrite (seen_fresh nl _ EW).
    destruct (bin_cut p nl _ B _ _ _) as [its [R2|k2]]; cbn [fst snd]; [|cbn [app]; eauto].
    destruct (bin_run p nl B _ R2 rest) as [past2 [its2 [R3|k3]]]; cbn [fst snd app]; eauto. }
  destruct X as (more & EM). rewrite EM in BC. destruct (writable 0 _) eqn:EWr.
  2:{ destruct BC as [k BC]. rewrite BC in HE. discriminate. }
  rewrite BC in HE. destruct (snd (bin_blocks p nl B (b1 :: b2 :: rest))); [discriminate|]. injection HE as <- <-.
  cbn [blabelled it_count it_rows it_extra]. rewrite N.add_0_l. eexists. eexists. split; [reflexivity|].
  unfold writable in EWr. cbn [forallb it_rows] in EWr. apply andb_true_iff in EWr. destruct EWr as [EWr _].
  apply andb_true_iff in EWr. destruct EWr as [EWr _]. apply Nat.leb_le in EWr.
  apply Forall_cons_iff in HF2. destruct HF2 as [HF21 HF2]. apply Forall_cons_iff in HF2. destruct HF2 as [HF22 _].
  pose proof (f_equal (@length _) E1) as L1. pose proof (f_equal (@length _) E2) as L2. rewrite app_length in L1, L2.
  pose proof (f_equal bytes_of E2) as B2. rewrite bytes_app in B2.
  assert (B1 : bytes_of b1 = bytes_of R) by (unfold bytes_of; rewrite SR; reflexivity).
  cbn [concat] in HL. rewrite !app_length in HL. change (2 ^ 32 - 2)%N with 4294967294%N in HL.
  apply bin_block_layout.
  - split; [apply nonempty_num; [exact EW|destruct R; [congruence|discriminate]]|exact EWr].
  - change (2 ^ 32)%N with 4294967296%N. rewrite app_length. lia.
  - rewrite bytes_app. cbn [length]. unfold u64_lim, u32_max in *. lia.
Qed.
Print Assumptions C36_completed_block.

(** Bounds on the blocks of any history. *)
Definition bounded (items : list bin_item) (len bytes : nat) : Prop :=
  Forall (fun it => 0 < num_vals (it_rows it) /\ length (it_rows it) <= len /\ bytes_of (it_rows it) + length (it_extra it) <= bytes) items.

Lemma bounded_le items len bytes len' bytes' : bounded items len bytes -> len <= len' -> bytes <= bytes' -> bounded items len' bytes'.
Proof. intros H L1 L2. eapply Forall_impl; [|exact H]. cbn. intros it (A & B & C). repeat split; [exact A|lia|lia]. Qed.

Lemma bin_cut_bounded p nl B : (0 < B)%N -> forall f s pos rows, bounded (fst (bin_cut p nl f B s pos rows)) (length rows) (bytes_of rows).
Proof.
  intros HB. induction f as [|f IH]; intros s pos rows; cbn [bin_cut]; [constructor|].
  destruct (fill B (somes rows)) as [q|] eqn:EF; [|constructor]. destruct (Nat.leb_spec q s) as [L|L]; [constructor|].
  destruct (fill_some _ _ _ EF) as (K1 & _ & _). cbn [fst]. constructor; cbn [it_rows it_extra].
  - rewrite num_take. split; [unfold num_vals; lia|]. split; [apply take_length|].
    unfold bytes_of. rewrite take_somes. rewrite <- app_length, <- concat_app, <- firstn_skipn_add. replace (q - s + s) with q by lia.
    rewrite <- (firstn_skipn q (somes rows)) at 2. rewrite concat_app, app_length. lia.
  - eapply bounded_le; [apply IH| |]; [pose proof (drop_length (q - s) rows); lia|pose proof (bytes_take_drop (q - s) rows); lia].
Qed.

Lemma bin_step_bounded p nl B past R b : (0 < B)%N -> ends_some R ->
  bounded (fst (snd (bin_step p nl B past R b))) (length R + length b) (bytes_of R + bytes_of b).
Proof.
  intros HB HE. unfold bin_step. destruct R as [|x R0].
  - cbn [snd]. eapply bounded_le; [apply bin_cut_bounded; exact HB|cbn; lia|cbn; lia].
  - set (R := x :: R0) in *. assert (RN : R <> []) by discriminate. clearbody R.
    destruct (fill (B - N.of_nat (bytes_of R)) (somes b)) as [k|] eqn:EF; [|constructor]. cbv zeta. cbn [fst snd].
    destruct (fill_some _ _ _ EF) as (K1 & _ & _).
    assert (WE : ends_some (R ++ take_vals k b)).
    { destruct (take_vals k b) eqn:ET; [rewrite app_nil_r; exact HE|]. rewrite <- ET. apply ends_app; [apply take_ends; exact K1|congruence]. }
    destruct (seen_spec nl past _ WE) as (S1 & S2 & S3 & _).
    pose proof (drop_length k b) as DL. pose proof (bytes_take_drop k b) as TD. rewrite app_length in S3. constructor; cbn [it_rows it_extra].
    + unfold num_vals, bytes_of. rewrite S1. fold (bytes_of (R ++ take_vals k b)). rewrite bytes_app. split.
      * rewrite somes_app, app_length. pose proof (nonempty_num R HE RN) as NP. unfold num_vals in NP. lia.
      * split; [lia|cbn [length]; fold (bytes_of R) (bytes_of b); lia].
    + eapply bounded_le; [apply bin_cut_bounded; exact HB|lia|lia].
Qed.

Lemma bin_run_bounded p nl B M : (0 < B)%N -> forall rowss past R, ends_some R -> (N.of_nat (bytes_of R) < B)%N ->
  Forall (fun r => bytes_of r <= M) rowss ->
  bounded (fst (snd (bin_run p nl B past R rowss))) (length R + sum_len rowss) (N.to_nat B + M).
Proof.
  intros HB. induction rowss as [|b rowss IH]; intros past R HE HR HF; cbn [bin_run]; [constructor|].
  apply Forall_cons_iff in HF. destruct HF as [HF1 HF2]. pose proof (bin_step_bounded p nl B past R b HB HE) as SB.
  assert (EL : sum_len (b :: rowss) = length b + sum_len rowss) by (unfold sum_len; cbn [concat]; apply app_length). rewrite EL.
  destruct (bin_step p nl B past R b) as [past1 [its [R1|k]]] eqn:ES; cbn [fst snd] in *.
  - apply bin_step_held in ES; [|exact HE|exact HR]. destruct ES as (A1 & A2 & A3 & _). apply Forall_app. split.
    + eapply bounded_le; [exact SB|lia|lia].
    + eapply bounded_le; [apply IH; assumption|lia|lia].
  - eapply bounded_le; [exact SB|lia|lia].
Qed.

(** C36 for every block of every history: laid out as documented for some rows,
    except that the data may go on (which only happens after the first block of a
    buffer, see C38 and C34). *)
Theorem C36_every_block :
  forall p B nl rowss blocks res, (0 < B)%N -> Forall (rows_allowed nl) rowss ->
  Forall (fun r => B + N.of_nat (length (concat (somes r))) < 2 ^ 32)%N rowss ->
  (N.of_nat (length (concat rowss)) <= 2 ^ 32 - 2)%N ->
  be_column_rows p B nl rowss = Ret (blocks, res) ->
  Forall (fun block => exists w extra, layout p nl w extra (snd block) /\ 1 <= length (somes w) <= 128
                         /\ (N.of_nat (length (concat (somes w)) + length extra) < 2 ^ 32)%N) blocks.
Proof.
  intros p B nl rowss blocks res HB HA HF HL HE. change (2 ^ 32)%N with 4294967296%N in *. change (4294967296 - 2)%N with 4294967294%N in *.
  assert (HF2 : Forall (fun r => B + N.of_nat (bytes_of r) <= u32_max)%N rowss).
  { eapply Forall_impl; [|exact HF]. unfold u32_max, bytes_of. cbn. intros; lia. }
  pose proof (be_column_rows_ok p B nl rowss HB HA HF2 HL) as BC. cbn zeta in BC.
  assert (X : bounded (fst (bin_blocks p nl B rowss)) (sum_len rowss) (N.to_nat 4294967295)).
  { set (M := N.to_nat (4294967295 - B)).
    assert (HM : Forall (fun r => bytes_of r <= M) rowss).
    { eapply Forall_impl; [|exact HF2]. cbn. unfold M, u32_max. intros; lia. }
    pose proof (bin_run_bounded p nl B M HB rowss [] [] ltac:(left; reflexivity) ltac:(cbn; lia) HM) as RB.
    destruct rowss as [|r0 rowss0] eqn:EQ; [unfold bin_blocks; cbn; constructor|]. rewrite <- EQ in *.
    assert (B32 : (B <= 4294967295)%N) by (rewrite EQ in HF2; apply Forall_cons_iff in HF2; destruct HF2 as [H2 _]; unfold u32_max in H2; lia).
    assert (EM : N.to_nat B + M = N.to_nat 4294967295) by (unfold M; clear -B32; lia). rewrite EM in RB. cbn [length Nat.add] in RB.
    unfold bin_blocks. destruct (bin_run p nl B [] [] rowss) as [past [its en]] eqn:ER. cbn [fst snd] in *.
    destruct en as [R|k]; cbn [fst]; [|exact RB]. apply Forall_app. split; [exact RB|].
    apply bin_run_held in ER; [|left; reflexivity|cbn; lia]. destruct ER as (A1 & A2 & A3). cbn [length Nat.add] in A3.
    destruct (seen_spec nl past R A2) as (S1 & S2 & S3 & _). unfold bin_last.
    destruct R as [|x R0] eqn:EQR; [constructor|]. rewrite <- EQR in *. assert (RN : R <> []) by (rewrite EQR; discriminate). clear EQR.
    constructor; [|constructor]. cbn [it_rows it_extra]. unfold num_vals, bytes_of. rewrite S1.
    split; [apply (nonempty_num R A2 RN)|]. split; [lia|]. fold (bytes_of R). cbn [length]. clear -A1 B32. lia. }
  destruct (writable 0 _) eqn:EW; [|destruct BC as [k BC]; rewrite BC in HE; discriminate].
  rewrite BC in HE. destruct (snd (bin_blocks p nl B rowss)); [discriminate|]. injection HE as <- <-.
  unfold writable in EW. apply andb_true_iff in EW. destruct EW as [EW _]. rewrite forallb_forall in EW.
  assert (LR : length (concat rowss) = sum_len rowss) by reflexivity. rewrite LR in HL. clear BC LR.
  revert X EW. generalize (fst (bin_blocks p nl B rowss)) as its. generalize 0%N as from.
  intros from its X. revert from. induction X as [|it its (X1 & X2 & X3) _ IH]; intros from EW; cbn [blabelled]; constructor.
  - cbn [snd]. exists (it_rows it), (it_extra it). specialize (EW it ltac:(left; reflexivity)). apply Nat.leb_le in EW.
    split; [|split; [split; [exact X1|exact EW]|unfold bytes_of in X3; clear -X3; lia]].
    apply bin_block_layout; [split; [exact X1|exact EW]|change (2 ^ 32)%N with 4294967296%N; clear -X2 HL; lia|unfold u64_lim; clear -X3; lia].
  - apply IH. intros it' Hi. apply EW. right. exact Hi.
Qed.
Print Assumptions C36_every_block.

(** C36, reading the data of a block back. *)
Theorem C36_data_readable :
  forall p nl R extra block, layout p nl R extra block -> (N.of_nat (length (concat (somes R)) + length extra) < 2 ^ 32)%N ->
  exists n, decode_varint p block = Ret (Ok (N.of_nat (length (concat (somes R)) + length extra), n)%N)
    /\ slice block n (n + (length (concat (somes R)) + length extra)) = Ret (concat (somes R) ++ extra).
Proof.
  intros p nl R extra block (size & pl & lens & validity & E1 & _ & _ & ->) HB. change (2 ^ 32)%N with 4294967296%N in HB.
  rewrite put_varint_ok in E1 by (unfold u64_lim; lia). injection E1 as <-. cbn [app].
  eexists. split; [apply decode_varint_bytes; unfold u64_lim; lia|].
  rewrite (app_assoc (concat (somes R)) extra). rewrite <- app_length. set (a := varint_bytes _).
  rewrite slice_ok by (rewrite ?app_length; lia). f_equal. replace (length a + _ - length a) with (length (concat (somes R) ++ extra)) by lia.
  rewrite (skipn_app_exact a), <- app_assoc, app_assoc. apply firstn_app_exact.
Qed.
Print Assumptions C36_data_readable.

Example C36_witness :
  match be_column_rows Debug 4 true [[Some [1; 2]; None; Some [3; 4; 5]; Some [6]]; [None; Some [7]; None]]%N with
  | Ret (blocks, Ok _) => blocks = [(2, [5; 1; 2; 3; 4; 5; 2; 2; 3; 5]); (5, [2; 6; 7; 1; 1; 3; 5])]%N
  | _ => False end
  /\ first_chunk 4 [Some [1; 2]; None; Some [3; 4; 5]; Some [6]]%N [Some [1; 2]; None; Some [3; 4; 5]]%N
  /\ layout Debug true [Some [1; 2]; None; Some [3; 4; 5]]%N [] [5; 1; 2; 3; 4; 5; 2; 2; 3; 5]%N
  /\ layout Debug true [Some [6]; None; Some [7]]%N [] [2; 6; 7; 1; 1; 3; 5]%N
  /\ match be_column_rows Debug 100 true [[None; Some [1]; None]]%N with
     | Ret (blocks, Ok _) => blocks = [(1, [1; 1; 1; 1; 3; 2])]%N
     | _ => False end.
Proof.
  split; [vm_compute; reflexivity|]. split; [|split; [|split; [|vm_compute; reflexivity]]].
  - exists [Some [1; 2]; None]%N, [3; 4; 5]%N, [Some [6]]%N. split; [reflexivity|]. split; [reflexivity|]. cbn. lia.
  - do 4 eexists. split; [vm_compute; reflexivity|]. split; [vm_compute; reflexivity|]. split; [vm_compute; reflexivity|].
    reflexivity.
  - do 4 eexists. split; [vm_compute; reflexivity|]. split; [vm_compute; reflexivity|]. split; [vm_compute; reflexivity|].
    reflexivity.
Qed.

(** ** C33: data held back *)

(** C33 as long as the sink accepts every block: the data held back between
    calls is less than a block.  Partial: it fails after an error, see below;
    and the sizes are assumed to fit in 32 bits. *)
Theorem C33_pending_below_partial :
  forall S (wr : sink_fn S) p B nl bufs rowss e s s', (0 < B)%N ->
  Forall2 (fun b rows => bb_holds b nl rows) bufs rowss ->
  Forall (fun rows => B + N.of_nat (length (concat (somes rows))) < 2 ^ 32)%N rowss ->
  (N.of_nat (length (concat rowss)) <= 2 ^ 32 - 2)%N ->
  be_encodes wr p (be_new B nl) bufs s = Ret (e, s', Ok tt) ->
  (N.of_nat (length (bb_data (be_remaining e))) < B)%N /\ be_min e = B.
Proof.
  intros S wr p B nl bufs rowss e s s' HB HH HF HL HE. change (2 ^ 32)%N with 4294967296%N in HF.
  assert (HF2 : Forall (fun r => B + N.of_nat (bytes_of r) <= u32_max)%N rowss).
  { eapply Forall_impl; [|exact HF]. unfold u32_max, bytes_of. cbn. intros; lia. }
  pose proof (be_encodes_ok wr p B nl HB bufs rowss (be_new B nl) [] [] 0%N s HH HF2 (be_inv_new B nl)) as PE.
  specialize (PE ltac:(cbn; lia) HL). cbn zeta in PE.
  destruct (bin_run p nl B [] [] rowss) as [past [its en]] eqn:ER. cbn [fst snd] in PE. unfold outcome_as in PE. rewrite HE in PE.
  destruct (bemits wr nl 0 its s) as [[[rows1 s1] [[]|]]|k|]; try discriminate; [| |contradiction].
  - destruct en as [R|k]; [|discriminate]. destruct PE as (e1 & E1 & I1). injection E1 as <- _.
    pose proof (bin_run_held p nl B rowss [] [] past its R ltac:(left; reflexivity) ER ltac:(cbn; lia)) as (A1 & _).
    destruct I1 as (D & _ & _ & _ & _ & M & _). rewrite D. split; [exact A1|exact M].
  - destruct PE as (e1 & E1 & _). discriminate.
Qed.
Print Assumptions C33_pending_below_partial.

Example C33_witness :
  match bb_fill true [[Some [1; 2; 3]]; [None; Some [4; 5; 6; 7]; Some [8; 9]]; [None]]%N with
  | Ret bufs => match be_encodes collect Debug (be_new 5 true) bufs [] with
                | Ret (e, blocks, Ok _) => bb_data (be_remaining e) = [8; 9]%N /\ map fst blocks = [2]%N
                | _ => False end
  | _ => False end.
Proof. vm_compute. split; reflexivity. Qed.

(** Rejects one block, then works again. *)
Definition fails_first : sink_fn bool := fun failed _ _ => if failed then (true, Ok tt) else (true, Err).

(** C33 is false once the sink failed: with a block size of 4 and one rejected
    block, 6 bytes are held back after the call; the next call, on any buffer,
    computes 4 - 6. *)
Theorem C33_pending_after_error_refuted :
  match bb_fill false [[Some [1; 2; 3]]; [Some [4; 5; 6]]; [Some [7]]]%N with
  | Ret [b1; b2; b3] =>
      match be_encodes fails_first Debug (be_new 4 false) [b1; b2] false with
      | Ret (e, true, Err) =>
          be_min e = 4%N /\ bb_data (be_remaining e) = [1; 2; 3; 4; 5; 6]%N
          /\ be_encode fails_first Debug 2 e b3 true = Panic POverflow
      | _ => False end
  | _ => False end.
Proof. vm_compute. repeat split. Qed.
Print Assumptions C33_pending_after_error_refuted.
