(** C34, C35 and C37: what becomes of a binary column, whatever the sizes of its
    buffers (raw/binary_enc.rs). *)
From Verif Require Import Base BaseProofs Spec SpecRows SpecBin Varint VarintProofs Buffers Observe BitmapProofs BuffersProofs
  Rle RleProofs Offsets OffsetsProofs Sink BinEnc ObserveEnc ReadBlock ReadBinBlock RowsProofs BlockProofs PrimRunProofs
  PropsPrimIds BinBlockProofs BinEncProofs BinRunProofs PropsBin PropsBinRows.
Open Scope nat_scope.

(** The blocks of a column by the rules of SpecBin.v: those of [bin_run], and one
    for what is held back in the end. *)
Definition planned_blocks (p : profile) (nl : bool) (B : N) (rowss : list (list (option (list N)))) : list bin_item * option panic_kind :=
  let '(past, (items, e)) := bin_run p nl B [] [] rowss in
  match e with
  | Held [] => (items, None)
  | Held R => (items ++ [mk_item (length (seen nl past R)) (seen nl past R) []], None)
  | Stuck k => (items, Some k)
  end.

(** No block has more than 128 items, and the rows can be counted. *)
Definition can_be_written (items : list bin_item) : Prop :=
  Forall (fun it => length (somes (it_rows it)) <= 128) items /\ (N.of_nat (list_sum (map it_count items)) < 2 ^ 32)%N.

(** The identifier of a block is the number of rows counted so far, less one. *)
Fixpoint counted (from : N) (items : list bin_item) : list N :=
  match items with
  | [] => []
  | it :: rest => (from + N.of_nat (it_count it) - 1)%N :: counted (from + N.of_nat (it_count it)) rest
  end.

Lemma planned_is p nl B rowss : planned_blocks p nl B rowss = bin_blocks p nl B rowss.
Proof.
  unfold planned_blocks, bin_blocks. destruct (bin_run p nl B [] [] rowss) as [past [items [R|k]]]; cbn [fst snd]; [|reflexivity].
  unfold bin_last. destruct R; [rewrite app_nil_r|]; reflexivity.
Qed.

Lemma writable_is items : writable 0 items = true <-> can_be_written items.
Proof.
  unfold writable, can_be_written. rewrite andb_true_iff, forallb_forall, Forall_forall, N.leb_le. change (2 ^ 32)%N with 4294967296%N. unfold u32_max.
  assert (T : total (map it_count items) = N.of_nat (list_sum (map it_count items))).
  { clear. induction items as [|it items IH]; [reflexivity|]. cbn [map total fold_right list_sum]. fold (total (map it_count items)). rewrite IH. unfold list_sum. cbn [fold_right]. lia. }
  rewrite T. split; intros [A C]; (split; [|lia]); intros it I; specialize (A it I); unfold num_vals in *; [apply Nat.leb_le in A; exact A|apply Nat.leb_le; exact A].
Qed.

Lemma planned_bounded p B nl rowss : (0 < B)%N -> Forall (fun r => B + N.of_nat (bytes_of r) <= u32_max)%N rowss ->
  bounded (fst (bin_blocks p nl B rowss)) (sum_len rowss) (N.to_nat 4294967295).
Proof.
  intros HB HF2. set (M := N.to_nat (4294967295 - B)).
  assert (HM : Forall (fun r => bytes_of r <= M) rowss).
  { eapply Forall_impl; [|exact HF2]. cbn. unfold M, u32_max. intros; lia. }
  pose proof (bin_run_bounded p nl B M HB rowss [] [] ltac:(left; reflexivity) ltac:(cbn; lia) HM) as RB.
  destruct rowss as [|r0 rowss0] eqn:EQ; [unfold bin_blocks; cbn; constructor|]. rewrite <- EQ in *.
  assert (B32 : (B <= 4294967295)%N) by (rewrite EQ in HF2; apply Forall_cons_iff in HF2; destruct HF2 as [H2 _]; unfold u32_max in H2; lia).
  assert (EM : N.to_nat B + M = N.to_nat 4294967295) by (unfold M; clear -B32; lia). rewrite EM in RB. cbn [length Nat.add] in RB.
  unfold bin_blocks. destruct (bin_run p nl B [] [] rowss) as [past [its en]] eqn:ER. cbn [fst snd] in *.
  destruct en as [R|k]; cbn [fst]; [|exact RB]. apply Forall_app. split; [exact RB|].
  apply bin_run_held in ER; [|left; reflexivity|cbn; lia]. destruct ER as (A1 & A2 & A3). cbn [length Nat.add] in A3.
  destruct (seen_spec nl past R A2) as (S1 & S2 & S3 & _). unfold bin_last.
  destruct R as [|x R0] eqn:EQR; [constructor|]. rewrite <- EQR in *. assert (RN : R <> []) by (rewrite EQR; discriminate). clear EQR.
  constructor; [|constructor]. cbn [it_rows it_extra]. unfold num_vals, bytes_of. rewrite S1.
  split; [apply (nonempty_num R A2 RN)|]. split; [lia|]. fold (bytes_of R). cbn [length]. clear -A1 B32. lia.
Qed.

(** Every column: its blocks are the planned ones, laid out as documented, with
    the identifiers counted; or there is a panic. *)
Theorem C34_column_exact :
  forall p B nl rowss, (0 < B)%N -> Forall (rows_allowed nl) rowss ->
  Forall (fun r => B + N.of_nat (length (concat (somes r))) < 2 ^ 32)%N rowss ->
  (N.of_nat (length (concat rowss)) <= 2 ^ 32 - 2)%N ->
  let '(items, stop) := planned_blocks p nl B rowss in
  (can_be_written items -> stop = None ->
     exists blocks, be_column_rows p B nl rowss = Ret (blocks, Ok tt)
       /\ map fst blocks = counted 0 items
       /\ Forall2 (fun it block => layout p nl (it_rows it) (it_extra it) (snd block)) items blocks)
  /\ (can_be_written items -> forall k, stop = Some k -> be_column_rows p B nl rowss = Panic k)
  /\ (~ can_be_written items -> is_panic (be_column_rows p B nl rowss)).
Proof.
  intros p B nl rowss HB HA HF HL. rewrite planned_is. change (2 ^ 32)%N with 4294967296%N in *. change (4294967296 - 2)%N with 4294967294%N in *.
  assert (HF2 : Forall (fun r => B + N.of_nat (bytes_of r) <= u32_max)%N rowss).
  { eapply Forall_impl; [|exact HF]. unfold u32_max, bytes_of. cbn. intros; lia. }
  pose proof (be_column_rows_ok p B nl rowss HB HA HF2 HL) as BC. cbn zeta in BC.
  pose proof (planned_bounded p B nl rowss HB HF2) as X. destruct (bin_blocks p nl B rowss) as [items stop]. cbn [fst snd] in *.
  split; [|split].
  - intros W ->. rewrite (proj2 (writable_is items) W) in BC. eexists. split; [exact BC|]. destruct W as [W _].
    assert (LR : sum_len rowss = length (concat rowss)) by reflexivity. rewrite LR in X. clear BC LR HF HF2 HA. generalize 0%N as from.
    induction X as [|it items (X1 & X2 & X3) _ IH]; intros from; [split; [reflexivity|constructor]|].
    apply Forall_cons_iff in W. destruct W as [W1 W2]. destruct (IH W2 (from + N.of_nat (it_count it))%N) as [I1 I2].
    cbn [blabelled map fst counted]. split; [f_equal; exact I1|]. constructor; [|exact I2]. cbn [snd].
    apply bin_block_layout; [split; [exact X1|exact W1]|change (2 ^ 32)%N with 4294967296%N; clear -X2 HL; lia|unfold u64_lim; clear -X3; lia].
  - intros W k ->. rewrite (proj2 (writable_is items) W) in BC. exact BC.
  - intros NW. destruct (writable 0 items) eqn:E; [|exact BC]. exfalso. apply NW, writable_is, E.
Qed.
Print Assumptions C34_column_exact.

(** C35: exactly when encoding a column returns. *)
Theorem C35_returns_exact :
  forall p B nl rowss, (0 < B)%N -> Forall (rows_allowed nl) rowss ->
  Forall (fun r => B + N.of_nat (length (concat (somes r))) < 2 ^ 32)%N rowss ->
  (N.of_nat (length (concat rowss)) <= 2 ^ 32 - 2)%N ->
  (exists r, be_column_rows p B nl rowss = Ret r)
  <-> can_be_written (fst (planned_blocks p nl B rowss)) /\ snd (planned_blocks p nl B rowss) = None.
Proof.
  intros p B nl rowss HB HA HF HL. pose proof (C34_column_exact p B nl rowss HB HA HF HL) as X. destruct (planned_blocks p nl B rowss) as [items stop]. cbn [fst snd].
  destruct X as (X1 & X2 & X3). split.
  - intros [r E]. assert (D : can_be_written items).
    { destruct (writable 0 items) eqn:W; [apply writable_is; exact W|]. exfalso. destruct X3 as [k K]; [rewrite <- writable_is, W; discriminate|]. rewrite K in E. discriminate E. }
    split; [exact D|]. destruct stop as [k|]; [|reflexivity]. rewrite (X2 D k eq_refl) in E. discriminate E.
  - intros [D ->]. destruct (X1 D eq_refl) as (blocks & E & _). eexists. exact E.
Qed.
Print Assumptions C35_returns_exact.

(** The items of the third buffer are in two blocks; the second begins with an
    item whose data is followed by that of the next one. *)
Example C34_exact_witness :
  planned_blocks Debug true 4 [[Some [1]; None]; [Some [2]]; [Some [3; 3]; Some [4; 4; 4]; Some [5]; Some [6]; None]]%N
    = ([mk_item 3 [Some [1]; Some [2]; Some [3; 3]]%N []; mk_item 2 [Some [4; 4; 4]]%N [5]%N; mk_item 2 [Some [5]; Some [6]]%N []], None)
  /\ match be_column_rows Debug 4 true [[Some [1]; None]; [Some [2]]; [Some [3; 3]; Some [4; 4; 4]; Some [5]; Some [6]; None]]%N with
     | Ret (blocks, Ok _) => map fst blocks = [2; 4; 6]%N
     | _ => False
     end
  /\ planned_blocks Debug false 2 [[Some [1; 1]; Some [2; 2]]]%N = ([mk_item 1 [Some [1; 1]%N] []], Some PAssert).
Proof. vm_compute. repeat split. Qed.
