(** C86: how much data the blocks of a column have, compared to the column. *)
From Verif Require Import Base BaseProofs Spec SpecRows SpecBin Varint VarintProofs Buffers Observe BitmapProofs BuffersProofs
  Rle RleProofs Offsets OffsetsProofs PropsOffsets Sink PrimEnc BinEnc ObserveEnc ReadBlock ReadBinBlock RowsProofs BlockProofs PrimEncProofs PrimRunProofs
  PropsPrim PropsPrimRows PropsPrimIds PropsRle BinBlockProofs BinEncProofs BinRunProofs PropsBin PropsBinRows PropsBinExact PropsBinPending PropsBlockMax
  Io SpecIo IoProofs IoReadProofs PropsIo Metadata SpecProto Names PropsNames Segment SpecSegment SegmentProofs SegmentRunProofs PropsSegment PropsSegmentEx PropsSegmentRef
  PropsReadBack PropsCrash PropsCut PropsDivision PropsApart.
Open Scope nat_scope.

(** * It can be much more *)

(** The blocks of a binary column together have no more data than the column:
    [data_size] is the size a block says its data has. *)
Definition C86_statement (B : N) (nl : bool) : Prop :=
  forall p rowss blocks sizes,
  Forall (rows_allowed nl) rowss ->
  Forall (fun r => B + N.of_nat (length (concat (somes r))) < 2 ^ 32)%N rowss ->
  (N.of_nat (length (concat rowss)) <= 2 ^ 32 - 2)%N ->
  be_column_rows p B nl rowss = Ret (blocks, Ok tt) ->
  Forall2 (fun b size => data_size p (snd b) size) blocks sizes ->
  (fold_right N.add 0 sizes <= N.of_nat (length (concat (somes (concat rowss)))))%N.

(** Items of 5, 4, 2 and 1 bytes, 512 bytes in all. *)
Definition am_rows : list (option (list N)) :=
  map (fun n => Some (repeat 7%N n)) (repeat 5 4 ++ repeat 4 59 ++ repeat 2 64 ++ repeat 1 128).

(** 99 blocks with 12671 bytes of data, with the block size of segments. *)
Lemma am_blocks p nl : match be_column_rows p 128 nl [am_rows] with
  | Ret (blocks, Ok tt) => length blocks = 99 /\ map (fun b => decode_varint p (snd b)) blocks = map (fun s => Ret (Ok s)) (repeat (128%N, 2) 98 ++ [(127%N, 1)])
      /\ forallb (fun b => 130 <=? length (snd b)) blocks = true
  | _ => False end.
Proof. destruct p, nl; vm_compute; repeat split. Qed.

Theorem C86_amplified_refuted : forall nl, ~ C86_statement 128 nl.
Proof.
  intros nl H. pose proof (am_blocks Debug nl) as X. specialize (H Debug [am_rows]).
  destruct (be_column_rows Debug 128 nl [am_rows]) as [[blocks [[]|]]|k|]; try contradiction X. destruct X as (_ & D & L).
  specialize (H blocks (repeat 128%N 98 ++ [127%N])).
  assert (AL : Forall (rows_allowed nl) [am_rows]).
  { constructor; [|constructor]. right. apply Forall_forall. intros r R. apply in_map_iff in R. destruct R as (n & <- & _). reflexivity. }
  specialize (H AL).
  assert (SZ : Forall2 (fun b size => data_size Debug (snd b) size) blocks (repeat 128%N 98 ++ [127%N])).
  { clear -D L. change (repeat 128%N 98 ++ [127%N]) with (map fst (repeat (128%N, 2) 98 ++ [(127%N, 1)])).
    assert (S : Forall (fun s => (N.of_nat (snd s) + fst s <= 130)%N) (repeat (128%N, 2) 98 ++ [(127%N, 1)])).
    { apply Forall_app. split; [apply Forall_forall; intros s K; apply repeat_spec in K; subst s; reflexivity|]. constructor; [discriminate|constructor]. }
    revert S D. generalize (repeat (128%N, 2) 98 ++ [(127%N, 1)]). induction blocks as [|b blocks IH]; intros [|s l] S D; try discriminate D; [constructor|].
    cbn [map] in *. injection D as D1 D2. cbn [forallb] in L. apply andb_true_iff in L. destruct L as [L1 L2]. apply Forall_cons_iff in S. destruct S as [S1 S2].
    constructor; [|apply IH; assumption]. destruct s as [size n]. exists n. split; [exact D1|]. apply Nat.leb_le in L1. cbn [fst snd] in *. lia. }
  assert (S1 : Forall (fun r : list (option (list N)) => 128 + N.of_nat (length (concat (somes r))) < 2 ^ 32)%N [am_rows]) by (constructor; [vm_compute; reflexivity|constructor]).
  assert (S2 : (N.of_nat (length (concat [am_rows])) <= 2 ^ 32 - 2)%N) by (vm_compute; discriminate).
  specialize (H S1 S2 eq_refl SZ). vm_compute in H. apply H. reflexivity.
Qed.
Print Assumptions C86_amplified_refuted.

(** * But not more than 45 times as much *)

Definition item_data (it : bin_item) : nat := bytes_of (it_rows it) + length (it_extra it).
Definition sum_of {A} (f : A -> nat) (l : list A) : nat := list_sum (map f l).

Lemma sum_of_cons {A} (f : A -> nat) x l : sum_of f (x :: l) = f x + sum_of f l.
Proof. reflexivity. Qed.
Lemma sum_of_one {A} (f : A -> nat) x : sum_of f [x] = f x.
Proof. unfold sum_of. cbn. lia. Qed.
Lemma sum_of_app {A} (f : A -> nat) a b : sum_of f (a ++ b) = sum_of f a + sum_of f b.
Proof. unfold sum_of. rewrite map_app. apply list_sum_app. Qed.

Lemma bytes_of_app a b : bytes_of (a ++ b) = bytes_of a + bytes_of b.
Proof. unfold bytes_of. rewrite somes_app, concat_app. apply app_length. Qed.

Lemma concat_firstn_le {T} n (l : list (list T)) : length (concat (firstn n l)) <= length (concat l).
Proof. rewrite <- (firstn_skipn n l) at 2. rewrite concat_app, app_length. lia. Qed.
Lemma concat_skipn_le {T} n (l : list (list T)) : length (concat (skipn n l)) <= length (concat l).
Proof. rewrite <- (firstn_skipn n l) at 2. rewrite concat_app, app_length. lia. Qed.

(** What becomes of the rest of a buffer. *)
Lemma bin_cut_cost p nl B : forall f s pos rows items R, bin_cut p nl f B s pos rows = (items, Held R) ->
  (items = [] \/ s + length items <= num_vals R + 1)
  /\ sum_of (fun it => bytes_of (it_rows it)) items + bytes_of R = bytes_of rows
  /\ sum_of (fun it => length (it_extra it)) items <= (length items - (if s =? 0 then 1 else 0)) * bytes_of rows
  /\ sum_of (fun it => num_vals (it_rows it)) items + num_vals R = num_vals rows
  /\ sum_of (fun it => length (it_rows it)) items + length R <= length rows.
Proof.
  induction f as [|f IH]; intros s pos rows items R H; cbn [bin_cut] in H; [discriminate H|].
  destruct (SpecBin.fill B (somes rows)) as [q|] eqn:EF.
  2:{ injection H as <- <-. rewrite trim_bytes, num_trim. pose proof (PrimRunProofs.trim_length rows). cbn. repeat split; auto. }
  destruct (Nat.leb_spec q s) as [QS|QS]; [discriminate H|].
  destruct (bin_cut p nl f B q _ _) as [its en] eqn:EC. cbn [fst snd] in H. injection H as <- ->.
  apply IH in EC. destruct EC as (C1 & C2 & C3 & C4 & C5). rewrite !sum_of_cons. cbn [it_rows it_extra length].
  destruct (fill_some _ _ _ EF) as (K1 & _ & _). fold (num_vals rows) in K1.
  rewrite num_take. rewrite num_drop in C4. pose proof (bytes_take_drop (q - s) rows) as BT. pose proof (drop_length (q - s) rows) as DL.
  split; [right; destruct C1 as [-> |C1]; cbn [length]; [change (sum_of (fun it => num_vals (it_rows it)) []) with 0 in C4; lia|lia]|].
  split; [lia|]. split; [|lia].
  replace (q =? 0) with false in C3 by (symmetry; apply Nat.eqb_neq; lia). rewrite Nat.sub_0_r in C3.
  assert (D1 : length its * bytes_of (drop_vals (q - s) rows) <= length its * bytes_of rows) by (apply Nat.mul_le_mono_l; lia).
  destruct (Nat.eqb_spec s 0) as [-> |SN].
  - cbn [firstn concat length]. rewrite Nat.sub_succ, Nat.sub_0_r. lia.
  - rewrite Nat.sub_0_r. cbn [Nat.mul]. pose proof (concat_firstn_le s (skipn (q - s) (somes rows))) as F1. pose proof (concat_skipn_le (q - s) (somes rows)) as F2. unfold bytes_of at 1. lia.
Qed.

Lemma item_data_sum items : sum_of item_data items = sum_of (fun it => bytes_of (it_rows it)) items + sum_of (fun it => length (it_extra it)) items.
Proof. induction items as [|it items IH]; [reflexivity|]. rewrite !sum_of_cons, IH. unfold item_data. lia. Qed.

(** Data, values and rows that went into the blocks, counted with what is held back. *)
Definition accounts (items : list bin_item) (R R0 : list (option (list N))) (data values rows : nat) : Prop :=
  bytes_of R0 + data <= sum_of item_data items + bytes_of R
  /\ sum_of item_data items + bytes_of R <= bytes_of R0 + 129 * data
  /\ sum_of (fun it => num_vals (it_rows it)) items + num_vals R = num_vals R0 + values
  /\ sum_of (fun it => length (it_rows it)) items + length R <= length R0 + rows.

Lemma bin_step_cost p nl B past R b past' items R' : ends_some R -> (N.of_nat (bytes_of R) < B)%N ->
  bin_step p nl B past R b = (past', (items, Held R')) -> num_vals R' <= 128 ->
  accounts items R' R (bytes_of b) (num_vals b) (length b)
  /\ (num_vals R <= num_vals R' \/ Exists (fun it => num_vals R <= num_vals (it_rows it)) items).
Proof.
  intros HE HB H H128. unfold bin_step in H. unfold accounts. destruct R as [|x R0].
  - destruct (bin_cut p nl _ B 0 0 b) as [its en] eqn:EC. injection H as _ <- ->. apply bin_cut_cost in EC. destruct EC as (C1 & C2 & C3 & C4 & C5).
    change (bytes_of []) with 0. change (@num_vals (list N) []) with 0. cbn [length Nat.eqb] in *. rewrite item_data_sum. split; [|left; lia].
    split; [lia|]. split; [|lia].
    assert (L : length its - 1 <= 128) by (destruct C1 as [-> |C1]; cbn [length]; lia).
    pose proof (Nat.mul_le_mono_r _ _ (bytes_of b) L). lia.
  - set (R := x :: R0) in *. clearbody R. destruct (SpecBin.fill (B - N.of_nat (bytes_of R)) (somes b)) as [k|] eqn:EF.
    + destruct (bin_cut _ _ _ _ _ _ _) as [its en] eqn:EC. cbn [fst snd] in H. injection H as _ <- ->. apply bin_cut_cost in EC.
      destruct EC as (C1 & C2 & C3 & C4 & C5). destruct (fill_some _ _ _ EF) as (K1 & _ & _). fold (num_vals b) in K1.
      assert (KP : k <> 0) by (intros ->; destruct (somes b); cbn [SpecBin.fill] in EF; destruct (N.eqb_spec (B - N.of_nat (bytes_of R)) 0); try lia; try discriminate EF; destruct (SpecBin.fill _ _); discriminate EF).
      assert (WE : ends_some (R ++ take_vals k b)).
      { destruct (take_vals k b) eqn:ET; [rewrite app_nil_r; exact HE|]. rewrite <- ET. apply RowsProofs.ends_app; [apply take_ends; exact K1|congruence]. }
      destruct (seen_spec nl past _ WE) as (S1 & _ & S3 & _).
      assert (S1b : bytes_of (seen nl past (R ++ take_vals k b)) = bytes_of R + bytes_of (take_vals k b)) by (rewrite <- bytes_of_app; unfold bytes_of; rewrite S1; reflexivity).
      assert (S1n : num_vals (seen nl past (R ++ take_vals k b)) = num_vals R + num_vals (take_vals k b)) by (rewrite <- num_vals_app; unfold num_vals; rewrite S1; reflexivity).
      rewrite app_length in S3. rewrite !sum_of_cons. unfold item_data at 1 3. cbn [it_rows it_extra length]. rewrite S1b, S1n, item_data_sum.
      rewrite num_take. rewrite num_drop in C4. pose proof (bytes_take_drop k b) as BT. pose proof (drop_length k b) as DL.
      replace (k =? 0) with false in C3 by (symmetry; apply Nat.eqb_neq; lia). rewrite Nat.sub_0_r in C3.
      split; [|right; left; cbn [it_rows]; lia]. split; [lia|]. split; [|lia].
      assert (L : length its <= 128) by (destruct C1 as [-> |C1]; cbn [length]; lia).
      pose proof (Nat.mul_le_mono_r _ _ (bytes_of (drop_vals k b)) L). lia.
    + injection H as _ <- <-. rewrite bytes_of_app, num_vals_app, app_length, trim_bytes, num_trim. pose proof (PrimRunProofs.trim_length b). cbn [sum_of map list_sum fold_right].
      split; [|left; lia]. unfold sum_of. cbn. lia.
Qed.

Lemma bin_run_cost p nl B : forall rowss past R past' items R', ends_some R -> (N.of_nat (bytes_of R) < B)%N ->
  bin_run p nl B past R rowss = (past', (items, Held R')) -> num_vals R' <= 128 -> Forall (fun it => num_vals (it_rows it) <= 128) items ->
  accounts items R' R (bytes_of (concat rowss)) (num_vals (concat rowss)) (length (concat rowss)) /\ num_vals R <= 128.
Proof.
  induction rowss as [|b rowss IH]; intros past R past' items R' HE HB H H128 HF; cbn [bin_run] in H.
  - injection H as _ <- <-. split; [|exact H128]. unfold accounts. cbn. lia.
  - destruct (bin_step p nl B past R b) as [past1 [its en]] eqn:ES. destruct en as [R1|k]; [|discriminate H].
    destruct (bin_run p nl B past1 R1 rowss) as [past2 [its2 en2]] eqn:ER. cbn [fst snd] in H. injection H as _ <- ->.
    apply Forall_app in HF. destruct HF as [F1 F2]. assert (ES' := ES). apply bin_step_held in ES'; [|exact HE|exact HB]. destruct ES' as (A1 & A2 & _).
    destruct (IH _ _ _ _ _ A2 A1 ER H128 F2) as [(I1 & I2 & I3 & I4) I5].
    destruct (bin_step_cost _ _ _ _ _ _ _ _ _ HE HB ES I5) as [(C1 & C2 & C3 & C4) C5]. split.
    + unfold accounts. cbn [concat]. rewrite !sum_of_app, bytes_of_app, num_vals_app, app_length. lia.
    + destruct C5 as [C5|C5]; [lia|]. apply Exists_exists in C5. destruct C5 as (it & I & C5). rewrite Forall_forall in F1. specialize (F1 it I). lia.
Qed.

Lemma planned_cost p nl B rowss : (0 < B)%N -> snd (planned_blocks p nl B rowss) = None -> can_be_written (fst (planned_blocks p nl B rowss)) ->
  accounts (fst (planned_blocks p nl B rowss)) [] [] (bytes_of (concat rowss)) (num_vals (concat rowss)) (length (concat rowss)).
Proof.
  intros HB. unfold planned_blocks. destruct (bin_run p nl B [] [] rowss) as [past [items [R|k]]] eqn:ER; [|discriminate].
  pose proof (bin_run_held p nl B rowss [] [] past items R ltac:(left; reflexivity) ER ltac:(cbn; lia)) as (_ & A2 & _).
  assert (G : forall R0 : list (option (list N)), R0 = R -> num_vals R0 <= 128 -> Forall (fun it => num_vals (it_rows it) <= 128) items -> _)
    by (intros R0 -> X Y; exact (bin_run_cost p nl B rowss [] [] past items R ltac:(left; reflexivity) ltac:(cbn; lia) ER X Y)).
  destruct R as [|x R0]; cbn [fst snd]; intros _ [W _].
  - apply (G [] eq_refl); [cbn; lia|]. eapply Forall_impl; [|exact W]. intros it X. exact X.
  - set (R := x :: R0) in *. clearbody R. apply Forall_app in W. destruct W as [W1 W2]. apply Forall_cons_iff in W2. destruct W2 as [W2 _]. cbn [it_rows] in W2.
    destruct (seen_spec nl past R A2) as (S1 & _ & S3 & _). rewrite S1 in W2.
    destruct (G R eq_refl W2) as [(I1 & I2 & I3 & I4) _]; [eapply Forall_impl; [|exact W1]; intros it X; exact X|].
    assert (S1b : bytes_of (seen nl past R) = bytes_of R) by (unfold bytes_of; rewrite S1; reflexivity).
    assert (S1n : num_vals (seen nl past R) = num_vals R) by (unfold num_vals; rewrite S1; reflexivity).
    unfold accounts in *. rewrite !sum_of_app, !sum_of_one. unfold item_data at 2 4. cbn [it_rows it_extra length]. rewrite S1b, S1n.
    change (bytes_of []) with 0 in *. change (@num_vals (list N) []) with 0 in *. cbn [length] in *. lia.
Qed.

(** ** The windows of one buffer *)

(** [sizes], the data of the blocks made of the values [vs] that are left of a
    buffer after [s] values, and [R], the values held back in the end. *)
Inductive chain (b : nat) : nat -> list (list N) -> list nat -> list (list N) -> Prop :=
| ch_end s vs : cbytes vs < b -> chain b s vs [] vs
| ch_block s q vs sizes R : s < q -> q <= length vs -> b <= cbytes (firstn q vs) -> cbytes (firstn (q - 1) vs) < b ->
    chain b q (skipn (q - s) vs) sizes R -> chain b s vs (cbytes (firstn q vs) :: sizes) R.

Lemma skipn_skipn' {A} (a c : nat) (l : list A) : skipn a (skipn c l) = skipn (c + a) l.
Proof. revert l. induction c as [|c IH]; intros l; [reflexivity|]. destruct l as [|x l]; [rewrite !skipn_nil; reflexivity|]. cbn [skipn Nat.add]. apply IH. Qed.

Lemma cbytes_split n vs : cbytes vs = cbytes (firstn n vs) + cbytes (skipn n vs).
Proof. rewrite <- cbytes_app, firstn_skipn. reflexivity. Qed.

Lemma cbytes_skip a c vs : a <= c -> cbytes (skipn c vs) <= cbytes (skipn a vs).
Proof. intros H. rewrite (cbytes_split (c - a) (skipn a vs)), skipn_skipn'. replace (a + (c - a)) with c by lia. lia. Qed.

(** All the blocks without their last values have less than the block size, and
    no value is the last of two blocks. *)
Lemma chain_sizes b s vs sizes R : 0 < b -> chain b s vs sizes R -> list_sum sizes <= length sizes * (b - 1) + cbytes (skipn s vs).
Proof.
  intros HB. induction 1 as [s vs H|s q vs sizes R H1 H2 H3 H4 C IH]; [cbn; lia|]. cbn [list_sum fold_right length]. fold (list_sum sizes).
  rewrite skipn_skipn' in IH.
  assert (E1 : cbytes (firstn q vs) = cbytes (firstn (q - 1) vs) + cbytes (firstn 1 (skipn (q - 1) vs))).
  { rewrite <- cbytes_app. f_equal. rewrite <- (firstn_skipn (q - 1) (firstn q vs)). rewrite firstn_firstn. replace (min (q - 1) q) with (q - 1) by lia. f_equal.
    rewrite skipn_firstn_comm. f_equal. lia. }
  pose proof (cbytes_split 1 (skipn (q - 1) vs)) as E2. rewrite skipn_skipn' in E2.
  pose proof (cbytes_skip s (q - 1) vs ltac:(lia)). pose proof (cbytes_skip (q - 1 + 1) (q - s + q) vs ltac:(lia)). lia.
Qed.

Lemma chain_left b s vs sizes R : chain b s vs sizes R -> cbytes R <= cbytes vs /\ cbytes R < b /\ (sizes = [] \/ s + length sizes <= length R + 1) /\ (sizes <> [] -> b <= cbytes vs).
Proof.
  induction 1 as [s vs H|s q vs sizes R H1 H2 H3 H4 C IH]; [split; [lia|]; split; [exact H|]; split; [left; reflexivity|congruence]|].
  destruct IH as (I1 & I2 & I3 & _). pose proof (cbytes_skip 0 (q - s) vs ltac:(lia)) as K. cbn [skipn] in K. pose proof (cbytes_split q vs).
  split; [lia|]. split; [exact I2|]. split; [|intros _; lia]. right. cbn [length]. destruct I3 as [-> |I3]; [|lia].
  inversion C; subst. rewrite skipn_length. cbn [length]. lia.
Qed.

(** The first block that starts at [t] or later. *)
Lemma chain_at b s vs sizes R : chain b s vs sizes R -> forall t, s <= t ->
  exists s' j, j <= t - s /\ j <= length sizes /\ s + j <= s' /\ chain b s' (skipn (s' - s) vs) (skipn j sizes) R /\ (t <= s' \/ j = length sizes).
Proof.
  induction 1 as [s vs H|s q vs sizes R H1 H2 H3 H4 C IH]; intros t T.
  - exists s, 0. rewrite Nat.sub_diag. cbn [skipn length]. repeat (split; [lia|]). split; [apply ch_end, H|right; reflexivity].
  - destruct (Nat.eq_dec s t) as [<- |NE]; [exists s, 0; rewrite Nat.sub_diag; cbn [skipn length]; repeat (split; [lia|]); split; [econstructor; eassumption|left; lia]|].
    destruct (Nat.le_gt_cases q t) as [Q|Q].
    + destruct (IH t Q) as (s' & j & J1 & J2 & J3 & J4 & J5). exists s', (S j). rewrite skipn_skipn' in J4. replace (q - s + (s' - q)) with (s' - s) in J4 by lia.
      cbn [skipn length]. repeat (split; [lia|]). split; [exact J4|]. destruct J5; [left|right]; lia.
    + exists q, 1. cbn [skipn length]. repeat (split; [lia|]). split; [exact C|left; lia].
Qed.

(** How much data there is for many blocks. *)
Lemma chain_two b s vs sizes R : chain b s vs sizes R -> s < length sizes ->
  exists s' j, j <= s + 1 /\ s + j <= s' /\ b + cbytes (skipn (s' - s) vs) <= cbytes vs /\ chain b s' (skipn (s' - s) vs) (skipn j sizes) R /\ j <= length sizes.
Proof.
  intros C L. inversion C as [|? q ? szs ? H1 H2 H3 H4 C1]; subst; [cbn in L; lia|]. cbn [length] in L.
  destruct (chain_at _ _ _ _ _ C1 (s + q) ltac:(lia)) as (s' & j & J1 & J2 & J3 & J4 & J5).
  exists s', (S j). rewrite skipn_skipn' in J4. replace (q - s + (s' - q)) with (s' - s) in J4 by lia.
  split; [lia|]. split; [lia|]. split; [|split; [exact J4|cbn [length]; lia]].
  pose proof (cbytes_split q vs). pose proof (cbytes_skip q (s' - s) vs ltac:(lia)). lia.
Qed.

Lemma chain_more b s vs sizes R : chain b s vs sizes R -> length R <= 128 ->
  (s + 1 <= length sizes -> b + cbytes R <= cbytes vs)
  /\ (s + 2 <= length sizes -> 2 * b <= cbytes vs)
  /\ (s + 67 <= length sizes -> 3 * b <= cbytes vs).
Proof.
  intros C LR. split; [|split]; intros L.
  - destruct (chain_two _ _ _ _ _ C ltac:(lia)) as (s' & j & J1 & J2 & J3 & J4 & J5). destruct (chain_left _ _ _ _ _ J4) as (K & _). lia.
  - destruct (chain_two _ _ _ _ _ C ltac:(lia)) as (s' & j & J1 & J2 & J3 & J4 & J5). destruct (chain_left _ _ _ _ _ J4) as (_ & _ & _ & K).
    specialize (K ltac:(intros E; apply (f_equal (@length nat)) in E; rewrite skipn_length in E; cbn in E; lia)). lia.
  - destruct (chain_two _ _ _ _ _ C ltac:(lia)) as (s' & j & J1 & J2 & J3 & J4 & J5). destruct (chain_left _ _ _ _ _ J4) as (_ & _ & K & _).
    assert (LS : length (skipn j sizes) = length sizes - j) by apply skipn_length.
    destruct K as [K|K]; [rewrite K in LS; cbn in LS; lia|].
    destruct (chain_two _ _ _ _ _ J4 ltac:(lia)) as (s2 & j2 & M1 & M2 & M3 & M4 & M5). destruct (chain_left _ _ _ _ _ M4) as (_ & _ & _ & K2).
    specialize (K2 ltac:(intros E; apply (f_equal (@length nat)) in E; rewrite skipn_length in E; cbn [length] in E; lia)). lia.
Qed.

(** Three times the data of the blocks, and what is held back, weighed by how many
    values the next buffer can still add to it. *)
Lemma chain_cost b s vs sizes R : 0 < b -> chain b s vs sizes R -> length R <= 128 ->
  3 * list_sum sizes + (131 - length R) * cbytes R <= s * b + 135 * cbytes vs.
Proof.
  intros HB C LR. pose proof (chain_sizes _ _ _ _ _ HB C) as S1. pose proof (cbytes_skip 0 s vs ltac:(lia)) as S2. cbn [skipn] in S2.
  pose proof (chain_left _ _ _ _ _ C) as (L1 & L2 & L3 & L4). pose proof (chain_more _ _ _ _ _ C LR) as (M1 & M2 & M3).
  destruct (Nat.eq_dec (length sizes) 0) as [Z|NZ].
  - apply length_zero_iff_nil in Z. subst sizes. inversion C; subst. cbn [list_sum fold_right].
    assert ((131 - length R) * cbytes R <= 131 * cbytes R) by (apply Nat.mul_le_mono_r; lia). lia.
  - destruct L3 as [L3|L3]; [subst sizes; cbn in NZ; lia|]. specialize (L4 ltac:(intros ->; cbn in NZ; lia)).
    generalize dependent (cbytes (skipn s vs)). generalize dependent (list_sum sizes). generalize dependent (length sizes). generalize dependent (cbytes vs). generalize dependent (cbytes R). generalize dependent (length R).
    clear C. intros r LR x L2 T L1 L4 n L3 M1 M2 M3 NZ z u S1 S2.
    assert (X : (131 - r) * x <= (132 - s - n) * x) by (apply Nat.mul_le_mono_r; lia).
    assert (Y : n * (b - 1) <= n * b) by (apply Nat.mul_le_mono_l; lia).
    enough (3 * (n * b) + (132 - s - n) * x <= s * b + 132 * T) by lia. clear X Y S1 S2 z u.
    destruct (Nat.le_gt_cases n s) as [N1|N1]; [|destruct (Nat.eq_dec n (s + 1)) as [N2|N2]; [|destruct (Nat.le_gt_cases (s + 67) n) as [N3|N3]]].
    + assert (X : (132 - s - n) * x <= (132 - s - n) * b) by (apply Nat.mul_le_mono_l; lia).
      assert (Y : 3 * n * b + (132 - s - n) * b <= s * b + 132 * b); [|lia].
      rewrite <- !Nat.mul_add_distr_r. apply Nat.mul_le_mono_r. lia.
    + specialize (M1 ltac:(lia)). assert (X : (132 - s - n) * x <= 132 * x) by (apply Nat.mul_le_mono_r; lia).
      assert (Y : 3 * n * b <= s * b + 132 * b); [|lia]. rewrite <- !Nat.mul_add_distr_r. apply Nat.mul_le_mono_r. lia.
    + specialize (M3 ltac:(lia)). assert (X : (132 - s - n) * x <= (132 - s - n) * b) by (apply Nat.mul_le_mono_l; lia).
      assert (Y : 3 * n * b + (132 - s - n) * b <= s * b + 396 * b); [|lia].
      rewrite <- !Nat.mul_add_distr_r. apply Nat.mul_le_mono_r. lia.
    + specialize (M2 ltac:(lia)). assert (X : (132 - s - n) * x <= (132 - s - n) * b) by (apply Nat.mul_le_mono_l; lia).
      assert (Y : 3 * n * b + (132 - s - n) * b <= s * b + 264 * b); [|lia].
      rewrite <- !Nat.mul_add_distr_r. apply Nat.mul_le_mono_r. lia.
Qed.

(** ** The column *)

Lemma bin_cut_chain p nl B : (0 < B)%N -> forall f s pos rows items R, bin_cut p nl f B s pos rows = (items, Held R) ->
  chain (N.to_nat B) s (somes rows) (map item_data items) (somes R).
Proof.
  intros HB. induction f as [|f IH]; intros s pos rows items R H; cbn [bin_cut] in H; [discriminate H|].
  destruct (SpecBin.fill B (somes rows)) as [q|] eqn:EF.
  2:{ injection H as <- <-. rewrite PropsBinRows.somes_trim. apply ch_end. apply fill_none in EF. lia. }
  destruct (Nat.leb_spec q s) as [QS|QS]; [discriminate H|].
  destruct (bin_cut p nl f B q _ _) as [its en] eqn:EC. cbn [fst snd] in H. injection H as <- ->. apply IH in EC. rewrite drop_somes in EC.
  destruct (fill_some _ _ _ EF) as (K1 & K2 & K3). cbn [map].
  replace (item_data _) with (cbytes (firstn q (somes rows))).
  2:{ unfold item_data. cbn [it_rows it_extra]. unfold bytes_of. rewrite take_somes. change (length (concat ?l)) with (cbytes l). rewrite <- cbytes_app. f_equal.
      rewrite <- (firstn_skipn (q - s) (firstn q (somes rows))), firstn_firstn, skipn_firstn_comm. f_equal; f_equal; lia. }
  apply ch_block; [exact QS|exact K1|lia| |exact EC]. specialize (K3 (q - 1) ltac:(lia)). lia.
Qed.

Definition weight (R : list (option (list N))) : nat := (131 - num_vals R) * bytes_of R.

Lemma step_weight p nl B past R b past' items R' : ends_some R -> (N.of_nat (bytes_of R) < B)%N ->
  bin_step p nl B past R b = (past', (items, Held R')) -> num_vals R' <= 128 -> Forall (fun it => num_vals (it_rows it) <= 128) items ->
  3 * sum_of item_data items + weight R' <= weight R + 135 * bytes_of b.
Proof.
  intros HE HB H H128 HF. unfold bin_step in H. unfold weight.
  assert (cut : forall f s pos rows its, bin_cut p nl f B s pos rows = (its, Held R') ->
    3 * sum_of item_data its + (131 - num_vals R') * bytes_of R' <= s * N.to_nat B + 135 * bytes_of rows).
  { intros f s pos rows its EC. apply bin_cut_chain in EC; [|lia]. apply chain_cost in EC; [exact EC|lia|exact H128]. }
  destruct R as [|x R0].
  - destruct (bin_cut p nl _ B 0 0 b) as [its en] eqn:EC. injection H as _ <- ->. apply cut in EC. change (bytes_of []) with 0. lia.
  - set (R := x :: R0) in *. clearbody R. destruct (SpecBin.fill (B - N.of_nat (bytes_of R)) (somes b)) as [k|] eqn:EF.
    + destruct (bin_cut _ _ _ _ _ _ _) as [its en] eqn:EC. cbn [fst snd] in H. injection H as _ <- ->. apply cut in EC.
      destruct (fill_some _ _ _ EF) as (K1 & K2 & _). fold (num_vals b) in K1.
      assert (KP : k <> 0) by (intros ->; cbn in K2; lia).
      assert (WE : ends_some (R ++ take_vals k b)).
      { destruct (take_vals k b) eqn:ET; [rewrite app_nil_r; exact HE|]. rewrite <- ET. apply RowsProofs.ends_app; [apply take_ends; exact K1|congruence]. }
      destruct (seen_spec nl past _ WE) as (S1 & _).
      assert (S1b : bytes_of (seen nl past (R ++ take_vals k b)) = bytes_of R + bytes_of (take_vals k b)) by (rewrite <- bytes_of_app; unfold bytes_of; rewrite S1; reflexivity).
      assert (S1n : num_vals (seen nl past (R ++ take_vals k b)) = num_vals R + num_vals (take_vals k b)) by (rewrite <- num_vals_app; unfold num_vals; rewrite S1; reflexivity).
      apply Forall_cons_iff in HF. destruct HF as [HF _]. cbn [it_rows] in HF. rewrite S1n, num_take in HF.
      rewrite !sum_of_cons. unfold item_data at 1. cbn [it_rows it_extra length]. rewrite S1b.
      pose proof (bytes_take_drop k b) as BT.
      assert (K3 : N.to_nat B <= bytes_of R + bytes_of (take_vals k b)) by (unfold bytes_of at 2; rewrite take_somes; fold (cbytes (firstn k (somes b))); lia).
      assert (X : k * N.to_nat B <= (128 - num_vals R) * (bytes_of R + bytes_of (take_vals k b))) by (apply Nat.mul_le_mono; lia).
      assert (Y : (131 - num_vals R) * bytes_of R = (128 - num_vals R) * bytes_of R + 3 * bytes_of R) by (rewrite <- Nat.mul_add_distr_r; f_equal; lia).
      rewrite Nat.mul_add_distr_l in X.
      assert (Z : (128 - num_vals R) * bytes_of (take_vals k b) <= 128 * bytes_of (take_vals k b)) by (apply Nat.mul_le_mono_r; lia).
      lia.
    + injection H as _ <- <-. rewrite bytes_of_app, num_vals_app, trim_bytes, num_trim in *. change (sum_of item_data []) with 0.
      assert (X : (131 - (num_vals R + num_vals b)) * (bytes_of R + bytes_of b) <= (131 - num_vals R) * (bytes_of R + bytes_of b)) by (apply Nat.mul_le_mono_r; lia).
      assert (Y : (131 - num_vals R) * bytes_of b <= 131 * bytes_of b) by (apply Nat.mul_le_mono_r; lia). rewrite Nat.mul_add_distr_l in X. lia.
Qed.

Lemma run_weight p nl B : forall rowss past R past' items R', ends_some R -> (N.of_nat (bytes_of R) < B)%N ->
  bin_run p nl B past R rowss = (past', (items, Held R')) -> num_vals R' <= 128 -> Forall (fun it => num_vals (it_rows it) <= 128) items ->
  3 * sum_of item_data items + weight R' <= weight R + 135 * bytes_of (concat rowss).
Proof.
  induction rowss as [|b rowss IH]; intros past R past' items R' HE HB H H128 HF; cbn [bin_run] in H.
  - injection H as _ <- <-. cbn. lia.
  - destruct (bin_step p nl B past R b) as [past1 [its en]] eqn:ES. destruct en as [R1|k]; [|discriminate H].
    destruct (bin_run p nl B past1 R1 rowss) as [past2 [its2 en2]] eqn:ER. cbn [fst snd] in H. injection H as _ <- ->.
    apply Forall_app in HF. destruct HF as [F1 F2]. assert (ES' := ES). apply bin_step_held in ES'; [|exact HE|exact HB]. destruct ES' as (A1 & A2 & _).
    destruct (bin_run_cost p nl B rowss past1 R1 past2 its2 R' A2 A1 ER H128 F2) as [_ N1].
    pose proof (IH _ _ _ _ _ A2 A1 ER H128 F2) as I1. pose proof (step_weight _ _ _ _ _ _ _ _ _ HE HB ES N1 F1) as I2.
    cbn [concat]. rewrite sum_of_app, bytes_of_app. lia.
Qed.

Lemma planned_weight p nl B rowss : (0 < B)%N -> snd (planned_blocks p nl B rowss) = None -> can_be_written (fst (planned_blocks p nl B rowss)) ->
  sum_of item_data (fst (planned_blocks p nl B rowss)) <= 45 * bytes_of (concat rowss).
Proof.
  intros HB. unfold planned_blocks. destruct (bin_run p nl B [] [] rowss) as [past [items [R|k]]] eqn:ER; [|discriminate].
  pose proof (bin_run_held p nl B rowss [] [] past items R ltac:(left; reflexivity) ER ltac:(cbn; lia)) as (_ & A2 & _).
  assert (G : num_vals R <= 128 -> Forall (fun it => num_vals (it_rows it) <= 128) items -> 3 * sum_of item_data items + weight R <= 135 * bytes_of (concat rowss))
    by (intros X Y; exact (run_weight p nl B rowss [] [] past items R ltac:(left; reflexivity) ltac:(cbn; lia) ER X Y)).
  destruct R as [|x R0]; cbn [fst snd]; intros _ [W _].
  - specialize (G ltac:(cbn; lia) W). lia.
  - set (R := x :: R0) in *. clearbody R. apply Forall_app in W. destruct W as [W1 W2]. apply Forall_cons_iff in W2. destruct W2 as [W2 _]. cbn [it_rows] in W2.
    destruct (seen_spec nl past R A2) as (S1 & _). rewrite S1 in W2. fold (num_vals R) in W2. specialize (G W2 W1).
    assert (S1b : bytes_of (seen nl past R) = bytes_of R) by (unfold bytes_of; rewrite S1; reflexivity).
    rewrite sum_of_app, sum_of_one. unfold item_data at 2. cbn [it_rows it_extra length]. rewrite S1b. unfold weight in G.
    assert (3 * bytes_of R <= (131 - num_vals R) * bytes_of R) by (apply Nat.mul_le_mono_r; lia). lia.
Qed.

(** A block is little longer than its data. *)
Lemma layout_length p nl R extra block : layout p nl R extra block ->
  (N.of_nat (length R) <= 2 ^ 32)%N -> (N.of_nat (length (concat (somes R)) + length extra) < 2 ^ 32)%N -> 0 < num_vals R <= 128 ->
  data_size p block (N.of_nat (bytes_of R + length extra))
  /\ length block <= bytes_of R + length extra + 20 * num_vals R + length R.
Proof.
  intros (size & pl & lens & val & SZ & OE & VA & ->) HL HD [HN1 HN2]. change (2 ^ 32)%N with 4294967296%N in *.
  fold (bytes_of R) in *. assert (U : (N.of_nat (bytes_of R + length extra) < u64_lim)%N) by (unfold u64_lim; lia).
  rewrite put_varint_ok in SZ by exact U. injection SZ as <-. cbn [app].
  split; [eexists; split; [apply decode_varint_bytes; exact U|]; rewrite !app_length; unfold bytes_of; lia|].
  pose proof (varint_bytes_length (N.of_nat (bytes_of R + length extra))) as VL.
  assert (N63 : (N.of_nat (length (map (fun v : list N => N.of_nat (length v)) (somes R))) < 2 ^ 63)%N).
  { rewrite map_length. unfold num_vals in HN2. change (2 ^ 63)%N with 9223372036854775808%N. lia. }
  destruct (C26_offsets_size p _ _ _ _ N63 OE) as (b & bytes & -> & LW & _ & LB & _).
  assert (B32 : b <= 32).
  { destruct LW as [_ LW]. apply LW. apply Forall_forall. intros v V. apply in_map_iff in V. destruct V as (x & <- & X). change (2 ^ N.of_nat 32)%N with 4294967296%N.
    assert (length x <= bytes_of R); [|lia]. unfold bytes_of. clear -X. induction (somes R) as [|y l IH]; [destruct X|]. cbn [concat]. rewrite app_length. destruct X as [-> |X]; [lia|]. specialize (IH X). lia. }
  rewrite map_length in LB. fold (num_vals R) in LB. assert (LB2 : length bytes <= 4 * num_vals R) by nia.
  assert (LV : length val <= length R + 4).
  { destruct nl; [|subst val; cbn; lia]. destruct (C17_rle_size (validity_of R)) as (enc & E & L & _); [rewrite validity_length; exact HL|].
    rewrite VA in E. injection E as <-. rewrite packed_length, validity_length in L. 
    assert (D1 : (length R + 7) / 8 * 8 <= length R + 7) by (rewrite Nat.mul_comm; apply Nat.mul_div_le; lia).
    assert (D2 : (length R + 7) / 8 / 64 <= (length R + 7) / 8) by (apply Nat.div_le_upper_bound; lia).
    assert (D3 : (length R + 7) / 8 / 64 * 64 <= (length R + 7) / 8) by (rewrite Nat.mul_comm; apply Nat.mul_div_le; lia). lia. }
  rewrite !app_length. cbn [app length]. unfold bytes_of in *. lia.
Qed.

(** The blocks of a column have at least its data and at most 45 times as much;
    there are no more blocks than values, and apart from their data they take up
    20 bytes for every value and one for every row. *)
Theorem C86_bound_partial : forall p B nl rowss blocks res,
  (0 < B)%N -> Forall (rows_allowed nl) rowss ->
  Forall (fun r => B + N.of_nat (length (concat (somes r))) < 2 ^ 32)%N rowss ->
  (N.of_nat (length (concat rowss)) <= 2 ^ 32 - 2)%N ->
  be_column_rows p B nl rowss = Ret (blocks, res) ->
  let data := length (concat (somes (concat rowss))) in
  let values := length (somes (concat rowss)) in
  exists sizes, Forall2 (fun b size => data_size p (snd b) (N.of_nat size)) blocks sizes
    /\ data <= list_sum sizes <= 45 * data
    /\ length blocks <= values
    /\ length (concat (map snd blocks)) <= 45 * data + 20 * values + length (concat rowss).
Proof.
  intros p B nl rowss blocks res HB HA HF HL HE. cbv zeta.
  assert (HF2 : Forall (fun r => B + N.of_nat (bytes_of r) <= u32_max)%N rowss).
  { change (2 ^ 32)%N with 4294967296%N in HF. eapply Forall_impl; [|exact HF]. unfold u32_max, bytes_of. cbn. intros; lia. }
  destruct (proj1 (C35_returns_exact p B nl rowss HB HA HF HL) (ex_intro _ _ HE)) as [W ST].
  pose proof (planned_bounded p B nl rowss HB HF2) as BD. rewrite <- planned_is in BD.
  pose proof (planned_cost p nl B rowss HB ST W) as AC. pose proof (planned_weight p nl B rowss HB ST W) as AW.
  pose proof (C34_column_exact p B nl rowss HB HA HF HL) as X.
  destruct (planned_blocks p nl B rowss) as [items stop]. cbn [fst snd] in *. subst stop.
  destruct X as (X & _). destruct (X W eq_refl) as (bl & E & _ & LY). rewrite HE in E. injection E as <- ->.
  assert (LR : sum_len rowss = length (concat rowss)) by reflexivity. rewrite LR in BD.
  destruct W as [W _]. exists (map item_data items).
  assert (G : Forall2 (fun b size => data_size p (snd b) (N.of_nat size)) blocks (map item_data items)
    /\ length blocks <= sum_of (fun it => num_vals (it_rows it)) items
    /\ length (concat (map snd blocks)) <= sum_of item_data items + 20 * sum_of (fun it => num_vals (it_rows it)) items + sum_of (fun it => length (it_rows it)) items).
  { clear -LY BD W HL. induction LY as [|it b items bl L1 _ IH]; [cbn; repeat split; [constructor|lia|lia]|].
    apply Forall_cons_iff in BD. destruct BD as [(B1 & B2 & B3) BD]. apply Forall_cons_iff in W. destruct W as [W1 W].
    destruct (IH W BD) as (I1 & I2 & I3).
    destruct (layout_length p nl _ _ _ L1) as [D1 D2].
    - change (2 ^ 32 - 2)%N with 4294967294%N in HL. change (2 ^ 32)%N with 4294967296%N. lia.
    - change (2 ^ 32)%N with 4294967296%N. unfold bytes_of in B3. lia.
    - unfold num_vals in *. lia.
    - cbn [map concat length]. rewrite !sum_of_cons, app_length. assert (IE : item_data it = bytes_of (it_rows it) + length (it_extra it)) by reflexivity. split; [constructor; [exact D1|exact I1]|]. lia. }
  destruct G as (G1 & G2 & G3). split; [exact G1|]. destruct AC as (A1 & A2 & A3 & A4).
  change (bytes_of []) with 0 in *. change (@num_vals (list N) []) with 0 in *. cbn [length] in *. rewrite !Nat.add_0_r, ?Nat.add_0_l in *.
  change (list_sum (map item_data items)) with (sum_of item_data items). unfold bytes_of, num_vals in *. lia.
Qed.
Print Assumptions C86_bound_partial.

(** No buffer larger than the block size: no data is written twice. *)
Theorem C86_small_buffers_partial : forall p B nl rowss blocks res,
  (0 < B)%N -> Forall (rows_allowed nl) rowss ->
  Forall (fun r => N.of_nat (length (concat (somes r))) <= B /\ B + N.of_nat (length (concat (somes r))) < 2 ^ 32)%N rowss ->
  (N.of_nat (length (concat rowss)) <= 2 ^ 32 - 8)%N ->
  be_column_rows p B nl rowss = Ret (blocks, res) ->
  exists sizes, Forall2 (fun b size => data_size p (snd b) (N.of_nat size)) blocks sizes
    /\ list_sum sizes = length (concat (somes (concat rowss))).
Proof.
  intros p B nl rowss blocks res HB HA HF HL HE.
  destruct (C34_values_kept_partial p B nl rowss blocks res HB HA HF HL HE) as (-> & ws & LY & V).
  assert (HF1 : Forall (fun r => B + N.of_nat (length (concat (somes r))) < 2 ^ 32)%N rowss) by (eapply Forall_impl; [|exact HF]; intros r [_ X]; exact X).
  assert (HL1 : (N.of_nat (length (concat rowss)) <= 2 ^ 32 - 2)%N) by (change (2 ^ 32 - 2)%N with 4294967294%N; change (2 ^ 32 - 8)%N with 4294967288%N in HL; lia).
  destruct (C86_bound_partial p B nl rowss blocks (Ok tt) HB HA HF1 HL1 HE) as (sizes & SZ & _). exists sizes. split; [exact SZ|].
  assert (TOT : (N.of_nat (length (concat (concat (map somes ws)))) < u64_lim)%N).
  { rewrite V. assert (T : (N.of_nat (length (concat (somes (concat rowss)))) <= 4294967296 * N.of_nat (length (concat rowss)))%N).
    { clear -HF1. change (2 ^ 32)%N with 4294967296%N in HF1. induction HF1 as [|r rowss H _ IH]; [cbn; lia|]. cbn [concat]. rewrite somes_app, concat_app, !app_length.
      assert (length (concat (somes r)) = 0 \/ 1 <= length r) by (destruct r; [left; reflexivity|right; cbn; lia]). lia. }
    change (2 ^ 32 - 8)%N with 4294967288%N in HL. unfold u64_lim. lia. }
  rewrite <- V. clear -SZ LY TOT. revert sizes SZ.
  induction LY as [|w b ws blocks L _ IH]; intros sizes SZ; inversion SZ as [|? size ? rest D SZ2]; subst; [reflexivity|].
  cbn [map concat] in *. rewrite concat_app, app_length in *. specialize (IH ltac:(lia)). change (list_sum (size :: rest)) with (size + list_sum rest). rewrite (IH _ SZ2). f_equal.
  destruct L as (sz & pl & lens & val & PV & _ & _ & E). cbn [length] in PV. rewrite Nat.add_0_r in PV. destruct D as (n & D & _). rewrite E in D.
  rewrite put_varint_ok in PV by lia. injection PV as <-. cbn [app] in D. rewrite decode_varint_bytes in D by lia. injection D as D _. lia.
Qed.
Print Assumptions C86_small_buffers_partial.

(** How long the data file of a segment with raw columns can get. *)
Theorem C86_data_file_partial : forall d p w base info w1 sg cols bufss it w2 sg2 rs file,
  0 < wd_max w -> is_id (si_segment_id info) -> segment_new w base info = (w1, Ok sg) ->
  Forall2 raw_column cols bufss -> orders_ok [SClose it] ->
  seg_run p w1 sg (columns_ops cols bufss ++ [SClose it]) = Ret (w2, sg2, rs) -> all_ok rs ->
  directory_after d (wd_log w2) (data_path base (si_segment_id info)) = Some file ->
  let rows := concat (flat_map snd cols) in
  length file <= 13 + 45 * length (concat (somes rows)) + 20 * length (somes rows) + length rows.
Proof.
  intros d p w base info w1 sg cols bufss it w2 sg2 rs file M ID N RC O H A DF. cbv zeta.
  assert (O' : orders_ok (columns_ops cols bufss ++ [SClose it])).
  { apply Forall_app. split; [|exact O]. unfold columns_ops. apply Forall_map. apply Forall_forall. intros x _. exact I. }
  destruct (C45_data_file d _ _ _ _ _ _ _ _ _ _ _ M ID N O' H A) as (bl & B & DD). rewrite DF in DD. injection DD as ->.
  destruct (apart_blocks p cols bufss RC bl B) as (blockss & F & -> & _).
  assert (G : length (concat (map snd (concat blockss))) <= 45 * length (concat (somes (concat (flat_map snd cols)))) + 20 * length (somes (concat (flat_map snd cols))) + length (concat (flat_map snd cols))).
  { clear -RC F. revert blockss F. induction RC as [|c bufs cols bufss R1 _ IH]; intros blockss F; inversion F as [|? b1 ? rest CB F2]; subst; [cbn; lia|].
    specialize (IH rest F2). destruct R1 as (_ & _ & HA & HF & HL).
    assert (HL1 : (N.of_nat (length (concat (snd c))) <= 2 ^ 32 - 2)%N) by (change (2 ^ 32 - 2)%N with 4294967294%N; change (2 ^ 32 - 8)%N with 4294967288%N in HL; lia).
    destruct (C86_bound_partial p 128 _ _ _ _ ltac:(reflexivity) HA HF HL1 CB) as (sizes & _ & _ & _ & L).
    cbn [concat flat_map]. rewrite map_app, !concat_app, !somes_app, !concat_app, !app_length. lia. }
  cbn [length]. lia.
Qed.
Print Assumptions C86_data_file_partial.

(** The blocks of a fixed-width column have no more values than the column. *)
Theorem C86_fixed_width_partial : forall p sz B cap nl bufs rowss written res,
  2 <= sz -> (N.of_nat sz < 2 ^ 31)%N -> (0 < B < 2 ^ 32)%N -> N.of_nat (cap * sz) = B ->
  Forall2 (fun b rows => pb_holds b nl rows) bufs rowss ->
  (total_rows rowss <= 2 ^ 32 - 8)%N -> Forall (fit sz) rowss ->
  pe_column p sz B nl bufs = Ret (written, res) ->
  exists ws, reads_blocks p sz nl written ws /\ length (somes (concat ws)) <= length (somes (concat rowss)).
Proof.
  intros p sz B cap nl bufs rowss written res H1 H2 H3 H4 H5 H6 H7 H8.
  destruct (C29_values_kept p sz B cap nl bufs rowss written res H1 H2 H3 H4 H5 H6 H7 H8) as (_ & ws & R & E & _).
  exists ws. split; [exact R|]. rewrite E, firstn_length. lia.
Qed.
Print Assumptions C86_fixed_width_partial.

(** The same 512 bytes in a segment: a data file of 13105 bytes.  And
    two buffers of 100 and 90 bytes, which come to 190 bytes in two blocks. *)
Example C86_witness :
  length (concat (somes am_rows)) = 512 /\ length am_rows = 255
  /\ (match bb_fill false [am_rows] with
      | Ret bufs =>
          match run_from Debug ex_world ex_base ex_info (columns_ops [(ex_a, [am_rows])] [bufs] ++ [SClose ex_it]) with
          | Some (w, _, rs) => all_ok rs
              /\ match directory_after (fun _ => None) (wd_log w) (data_path ex_base (si_segment_id ex_info)) with
                 | Some file => length file = 13105
                 | None => False end
          | None => False end
      | _ => False end)
  /\ match be_column_rows Debug 128 false [[Some (repeat 1%N 100)]; [Some (repeat 2%N 60); Some (repeat 3%N 30)]] with
     | Ret (blocks, Ok tt) => map (fun b => decode_varint Debug (snd b)) blocks = [Ret (Ok (160%N, 2)); Ret (Ok (30%N, 1))]
     | _ => False end.
Proof.
  split; [vm_compute; reflexivity|]. split; [vm_compute; reflexivity|]. split; [|vm_compute; reflexivity].
  vm_compute. split; [repeat constructor|reflexivity].
Qed.

(** [k] buffers of 171 items, each after a buffer that leaves one byte less than a block. *)
Definition factor_rows (B k : nat) : list (list (option (list N))) :=
  map (map (fun n => Some (repeat 7%N n)))
    ([[B - 1]] ++ repeat (repeat 0 42 ++ repeat 1 44 ++ [B - 43] ++ concat (repeat [0; 1] 42)) k).

(** At most [c] times as much data, instead of 45 times. *)
Definition C86_times_statement (c B : N) (nl : bool) : Prop :=
  forall p rowss blocks sizes,
  Forall (rows_allowed nl) rowss ->
  Forall (fun r => B + N.of_nat (length (concat (somes r))) < 2 ^ 32)%N rowss ->
  (N.of_nat (length (concat rowss)) <= 2 ^ 32 - 2)%N ->
  be_column_rows p B nl rowss = Ret (blocks, Ok tt) ->
  Forall2 (fun b size => data_size p (snd b) size) blocks sizes ->
  (fold_right N.add 0 sizes <= c * N.of_nat (length (concat (somes (concat rowss)))))%N.

Definition said (block : list N) : option N :=
  match decode_varint Debug block with
  | Ret (Ok (s, n)) => if (N.of_nat n + s <=? N.of_nat (length block))%N then Some s else None
  | _ => None
  end.

Fixpoint said_all (blocks : list (N * list N)) : option N :=
  match blocks with
  | [] => Some 0%N
  | b :: rest => match said (snd b), said_all rest with Some s, Some t => Some (s + t)%N | _, _ => None end
  end.

Lemma said_sizes blocks t : said_all blocks = Some t ->
  exists sizes, Forall2 (fun b size => data_size Debug (snd b) size) blocks sizes /\ fold_right N.add 0%N sizes = t.
Proof.
  revert t. induction blocks as [|b blocks IH]; cbn [said_all]; intros t E; [injection E as <-; exists []; split; [constructor|reflexivity]|].
  destruct (said (snd b)) as [s|] eqn:ES; [|discriminate E]. destruct (said_all blocks) as [t1|]; [|discriminate E]. injection E as <-.
  destruct (IH t1 eq_refl) as (sizes & F & <-). exists (s :: sizes). split; [|reflexivity]. constructor; [|exact F].
  unfold said in ES. destruct (decode_varint Debug (snd b)) as [[[s0 n]|]|k|] eqn:ED; try discriminate ES.
  destruct (N.of_nat n + s0 <=? N.of_nat (length (snd b)))%N eqn:EL; [|discriminate ES]. injection ES as <-. apply N.leb_le in EL.
  exists n. split; [exact ED|]. lia.
Qed.

Lemma times_refuted c B nl rowss blocks t :
  Forall (Forall (fun r : option (list N) => r <> None)) rowss ->
  Forall (fun r => B + N.of_nat (length (concat (somes r))) < 2 ^ 32)%N rowss ->
  (N.of_nat (length (concat rowss)) <= 2 ^ 32 - 2)%N ->
  be_column_rows Debug B nl rowss = Ret (blocks, Ok tt) -> said_all blocks = Some t ->
  (c * N.of_nat (length (concat (somes (concat rowss)))) < t)%N -> ~ C86_times_statement c B nl.
Proof.
  intros AL HF HL HE HS HT H. destruct (said_sizes _ _ HS) as (sizes & F & <-).
  assert (AL2 : Forall (rows_allowed nl) rowss).
  { eapply Forall_impl; [|exact AL]. intros r R. right. eapply Forall_impl; [|exact R]. intros [v|] X; [reflexivity|congruence]. }
  specialize (H Debug rowss blocks sizes AL2 HF HL HE F). lia.
Qed.

Lemma factor_some B k : Forall (Forall (fun r : option (list N) => r <> None)) (factor_rows B k).
Proof. unfold factor_rows. apply Forall_map. apply Forall_forall. intros l _. apply Forall_map. apply Forall_forall. intros n _. discriminate. Qed.

(** What [times_refuted] needs, computed. *)
Definition exceeds (c : N) (B k : nat) (nl : bool) : bool :=
  let rowss := factor_rows B k in
  forallb (fun r => (N.of_nat B + N.of_nat (length (concat (somes r))) <? 2 ^ 32)%N) rowss
  && (N.of_nat (length (concat rowss)) <=? 2 ^ 32 - 2)%N
  && match be_column_rows Debug (N.of_nat B) nl rowss with
     | Ret (blocks, Ok tt) => match said_all blocks with Some t => (c * N.of_nat (length (concat (somes (concat rowss)))) <? t)%N | None => false end
     | _ => false
     end.

Lemma exceeds_refuted c B k nl : exceeds c B k nl = true -> ~ C86_times_statement c (N.of_nat B) nl.
Proof.
  unfold exceeds. cbv zeta. intros E. apply andb_prop in E. destruct E as [E E3]. apply andb_prop in E. destruct E as [E1 E2].
  destruct (be_column_rows Debug (N.of_nat B) nl (factor_rows B k)) as [[blocks [[]|]]|k0|] eqn:EB; try discriminate E3.
  destruct (said_all blocks) as [t|] eqn:ES; [|discriminate E3]. apply N.ltb_lt in E3. apply N.leb_le in E2.
  eapply times_refuted; [apply factor_some| |exact E2|exact EB|exact ES|exact E3].
  apply Forall_forall. intros r R. rewrite forallb_forall in E1. apply N.ltb_lt. apply E1. exact R.
Qed.

(** With the block size of segments 30 times is not enough. *)
Theorem C86_factor_refuted : forall nl, ~ C86_times_statement 30 128 nl.
Proof. intros nl. apply (exceeds_refuted 30 128 10 nl). destruct nl; vm_compute; reflexivity. Qed.
Print Assumptions C86_factor_refuted.

Example C86_hypotheses : exists bufs, raw_column (ex_a, [am_rows]) bufs.
Proof.
  destruct (bb_fill false [am_rows]) as [bufs|k|] eqn:E; [|vm_compute in E; discriminate E..]. exists bufs.
  split; [reflexivity|]. split; [exact E|]. cbn [fst snd ex_a ci_nullable]. split; [|split].
  - constructor; [|constructor]. right. apply Forall_forall. intros r R. apply in_map_iff in R. destruct R as (n & <- & _). reflexivity.
  - constructor; [vm_compute; reflexivity|constructor].
  - vm_compute. discriminate.
Qed.
