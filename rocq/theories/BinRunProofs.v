(** Whole histories of the binary encoder. *)
From Verif Require Import Base BaseProofs Spec SpecRows SpecBin Varint VarintProofs Buffers Observe BitmapProofs BuffersProofs
  Rle Offsets OffsetsProofs Sink BinEnc ObserveEnc RowsProofs BlockProofs PrimRunProofs BinBlockProofs BinEncProofs.
Open Scope nat_scope.

(** ** What is held back *)

Lemma trim_bytes (b : list row) : bytes_of (trim b) = bytes_of b.
Proof. unfold bytes_of, trim. rewrite take_somes. unfold num_vals. rewrite firstn_all. reflexivity. Qed.

Lemma drop_length {T} k (rows : list (option T)) : length (take_vals k rows) + length (drop_vals k rows) = length rows.
Proof. rewrite <- app_length, take_drop. reflexivity. Qed.

Lemma bin_cut_held p nl B f : forall s pos rows items R, bin_cut p nl f B s pos rows = (items, Held R) ->
  (N.of_nat (bytes_of R) < B)%N /\ ends_some R /\ length R <= length rows /\ (rows_allowed nl rows -> rows_allowed nl R).
Proof.
  induction f as [|f IH]; intros s pos rows items R H; cbn [bin_cut] in H; [discriminate|].
  destruct (fill B (somes rows)) as [q|] eqn:EF.
  - destruct (q <=? s); [discriminate|]. cbn zeta in H.
    destruct (bin_cut p nl f B q _ _) as [its en] eqn:EC. cbn [fst snd] in H. injection H as _ ->.
    apply IH in EC. destruct EC as (A & B1 & C & D). split; [exact A|]. split; [exact B1|].
    pose proof (drop_length (q - s) rows). split; [lia|]. intros HA. apply D, allowed_drop, HA.
  - injection H as _ <-. apply fill_none in EF. split; [rewrite trim_bytes; exact EF|]. split; [apply trim_ends|].
    split; [apply trim_length|apply allowed_take].
Qed.

Lemma bin_step_held p nl B past R b past' items R' : ends_some R ->
  bin_step p nl B past R b = (past', (items, Held R')) ->
  (N.of_nat (bytes_of R) < B)%N ->
  (N.of_nat (bytes_of R') < B)%N /\ ends_some R' /\ length R' <= length R + length b
  /\ (rows_allowed nl R -> rows_allowed nl b -> rows_allowed nl R').
Proof.
  intros HE H HB. unfold bin_step in H. destruct R as [|x R0].
  - destruct (bin_cut p nl (S (num_vals b)) B 0 0 b) as [its en] eqn:EC. injection H as _ _ ->. apply bin_cut_held in EC. cbn [length]. tauto.
  - set (R := x :: R0) in *. destruct (fill (B - N.of_nat (bytes_of R)) (somes b)) as [k|] eqn:EF.
    + destruct (bin_cut _ _ _ _ _ _ _) as [its en] eqn:EC. cbn [fst snd] in H. injection H as _ _ ->.
      apply bin_cut_held in EC. destruct EC as (A & B1 & C & D). split; [exact A|]. split; [exact B1|].
      pose proof (drop_length k b). split; [lia|]. intros _ HA. apply D, allowed_drop, HA.
    + injection H as _ _ <-. apply fill_none in EF. change (cbytes (somes b)) with (bytes_of b) in EF.
      change (x :: R0 ++ trim b) with (R ++ trim b). clearbody R. rewrite bytes_app, trim_bytes. split; [lia|]. split.
      * destruct (trim b) eqn:ET; [rewrite app_nil_r; exact HE|]. rewrite <- ET. apply ends_app; [apply trim_ends|congruence].
      * split; [rewrite app_length; pose proof (trim_length b); lia|]. intros H1 H2. apply allowed_app. split; [exact H1|apply allowed_take, H2].
Qed.

Lemma bin_run_held p nl B : forall bufs past R past' items R', ends_some R ->
  bin_run p nl B past R bufs = (past', (items, Held R')) -> (N.of_nat (bytes_of R) < B)%N ->
  (N.of_nat (bytes_of R') < B)%N /\ ends_some R' /\ length R' <= length R + sum_len bufs.
Proof.
  induction bufs as [|b bufs IH]; intros past R past' items R' HE H HB; cbn [bin_run] in H.
  - injection H as _ _ <-. split; [exact HB|]. split; [exact HE|lia].
  - destruct (bin_step p nl B past R b) as [past1 [its en]] eqn:ES. destruct en as [R1|k]; [|discriminate].
    destruct (bin_run p nl B past1 R1 bufs) as [past2 [its2 en2]] eqn:ER. cbn [fst snd] in H. injection H as _ _ ->.
    apply bin_step_held in ES; [|exact HE|exact HB]. destruct ES as (A & A2 & A3 & A4).
    apply IH in ER; [|exact A2|exact A]. destruct ER as (C1 & C2 & C3). split; [exact C1|]. split; [exact C2|].
    unfold sum_len in *. cbn [concat]. rewrite app_length. lia.
Qed.

(** ** Histories *)

Section Run.
Context {S : Type} (wr : sink_fn S) (p : profile).

Lemma be_encodes_ok B nl : (0 < B)%N ->
  forall bufs rowss e past R rows s,
  Forall2 (fun b r => bb_holds b nl r) bufs rowss ->
  Forall (fun r => B + N.of_nat (bytes_of r) <= u32_max)%N rowss ->
  be_inv B nl e past R rows -> (N.of_nat (bytes_of R) < B)%N ->
  (N.of_nat (length R + sum_len rowss) <= 2 ^ 32 - 2)%N ->
  let r := bin_run p nl B past R rowss in
  outcome_as wr B nl (fst r) rows (fst (snd r)) (snd (snd r)) s (be_encodes wr p e bufs s) (fun _ _ => True).
Proof.
  intros HB. change (2 ^ 32 - 2)%N with 4294967294%N.
  induction bufs as [|b bufs IH]; intros rowss e past R rows s HH HF HI HRB HL;
    inversion HH as [|? r ? rowss' Hb Hbs]; subst; clear HH; cbn [bin_run be_encodes]; cbn zeta.
  - unfold outcome_as. cbn [fst snd bemits]. exists e. split; [reflexivity|exact HI].
  - apply Forall_cons_iff in HF. destruct HF as [HF1 HF2].
    assert (EL : sum_len (r :: rowss') = length r + sum_len rowss') by (unfold sum_len; cbn [concat]; apply app_length).
    rewrite EL in HL.
    assert (FU : num_vals r < length (bb_offsets b)).
    { destruct Hb as (_ & -> & _). rewrite running_length. unfold num_vals. lia. }
    pose proof (be_encode_ok wr p B nl past (length (bb_offsets b)) e R rows b r s HB HI HRB Hb HF1) as PE.
    change (2 ^ 32 - 2)%N with 4294967294%N in PE. specialize (PE ltac:(lia) FU). cbn zeta in PE.
    destruct (bin_step p nl B past R r) as [past1 [its en]] eqn:ES. cbn [fst snd] in PE. unfold outcome_as in PE.
    assert (HE : ends_some R) by apply HI.
    destruct en as [R1|k].
    + destruct (bin_step_held p nl B past R r past1 its R1 HE ES HRB) as (A & A2 & A3 & A4). cbn [fst snd]. unfold outcome_as.
      rewrite bemits_app. destruct (bemits wr nl rows its s) as [[[rows1 s1] res1]|k|]; cbn [bind]; [| |contradiction].
      * destruct res1 as [[]|].
        -- destruct PE as (e1 & -> & I1). rewrite bind_ret. apply (IH rowss' e1 past1 R1 rows1 s1 Hbs HF2 I1 A). lia.
        -- destruct PE as (e1 & -> & I1). exists e1. split; [reflexivity|exact I].
      * rewrite PE. reflexivity.
    + cbn [fst snd]. unfold outcome_as. destruct (bemits wr nl rows its s) as [[[rows1 s1] res1]|k'|]; [| |contradiction].
      * destruct res1 as [[]|].
        -- rewrite PE. reflexivity.
        -- destruct PE as (e1 & -> & I1). exists e1. split; [reflexivity|exact I].
      * rewrite PE. reflexivity.
Qed.

(** Encoding and flushing. *)
Lemma be_finish_ok B nl bufs rowss s : (0 < B)%N ->
  Forall2 (fun b r => bb_holds b nl r) bufs rowss ->
  Forall (fun r => B + N.of_nat (bytes_of r) <= u32_max)%N rowss ->
  (N.of_nat (sum_len rowss) <= 2 ^ 32 - 2)%N ->
  let r := bin_run p nl B [] [] rowss in
  match snd (snd r) with
  | Held R => match bemits wr nl 0 (fst (snd r) ++ bin_last nl (fst r) R) s with
              | Ret (rows', s', res) => exists e', be_finish wr p (be_new B nl) bufs s = Ret (e', s', res)
              | Panic k => be_finish wr p (be_new B nl) bufs s = Panic k
              | NoFuel => False end
  | Stuck k => match bemits wr nl 0 (fst (snd r)) s with
               | Ret (rows', s', Ok _) => be_finish wr p (be_new B nl) bufs s = Panic k
               | Ret (rows', s', Err) => exists e', be_finish wr p (be_new B nl) bufs s = Ret (e', s', Err)
               | Panic k' => be_finish wr p (be_new B nl) bufs s = Panic k'
               | NoFuel => False end
  end.
Proof.
  intros HB HH HF HL. pose proof (be_encodes_ok B nl HB bufs rowss (be_new B nl) [] [] 0%N s HH HF (be_inv_new B nl)) as PE.
  specialize (PE ltac:(cbn; lia) HL). cbn zeta in PE |- *. unfold be_finish.
  destruct (bin_run p nl B [] [] rowss) as [past [its en]] eqn:ER. cbn [fst snd] in *. unfold outcome_as in PE.
  destruct en as [R|k].
  - pose proof (bin_run_held p nl B rowss [] [] past its R ltac:(left; reflexivity) ER ltac:(cbn; lia)) as (A1 & A2 & A3).
    rewrite bemits_app. destruct (bemits wr nl 0 its s) as [[[rows1 s1] res1]|k|]; cbn [bind]; [| |contradiction].
    + destruct res1 as [[]|].
      * destruct PE as (e1 & -> & I1). rewrite bind_ret.
        assert (HB32 : (N.of_nat (bytes_of R) <= u32_max)%N).
        { destruct rowss as [|r0 rowss]; [cbn in ER; injection ER as _ _ <-; cbn; unfold u32_max; lia|].
          apply Forall_cons_iff in HF. destruct HF as [HF _]. lia. }
        assert (HL32 : (N.of_nat (length R) <= 2 ^ 32)%N).
        { change (2 ^ 32)%N with 4294967296%N. change (2 ^ 32 - 2)%N with 4294967294%N in HL. cbn [length] in A3. lia. }
        pose proof (be_flush_ok wr p B nl e1 past R rows1 s1 I1 HB32 HL32) as PF.
        destruct (bemits wr nl rows1 (bin_last nl past R) s1) as [[[rows2 s2] res2]|k2|]; auto.
        destruct PF as (e2 & -> & _). exists e2. reflexivity.
      * destruct PE as (e1 & -> & _). exists e1. reflexivity.
    + rewrite PE. reflexivity.
  - destruct (bemits wr nl 0 its s) as [[[rows1 s1] res1]|k'|]; [| |contradiction].
    + destruct res1 as [[]|]; [rewrite PE; reflexivity|]. destruct PE as (e1 & -> & _). exists e1. reflexivity.
    + rewrite PE. reflexivity.
Qed.
End Run.

(** The blocks [collect] gets. *)
Fixpoint blabelled (nl : bool) (rows : N) (items : list bin_item) : list (N * list N) :=
  match items with
  | [] => []
  | it :: rest => (rows + N.of_nat (it_count it) - 1, bin_block nl (it_rows it) (it_extra it))%N
                  :: blabelled nl (rows + N.of_nat (it_count it)) rest
  end.

(** Blocks that can be written: not too many items each, and not too many rows. *)
Definition writable (rows : N) (items : list bin_item) : bool :=
  forallb (fun it => num_vals (it_rows it) <=? 128) items && (rows + total (map it_count items) <=? u32_max)%N.

Lemma bemits_collect nl items : forall rows acc, (rows <= u32_max)%N ->
  if writable rows items
  then bemits collect nl rows items acc = Ret (rows + total (map it_count items), acc ++ blabelled nl rows items, Ok tt)%N
  else is_panic (bemits collect nl rows items acc).
Proof.
  unfold writable. induction items as [|it items IH]; intros rows acc HR; cbn [bemits].
  - cbn [forallb map total fold_right andb blabelled]. rewrite N.add_0_r, app_nil_r. destruct (N.leb_spec rows u32_max); [reflexivity|lia].
  - cbn [forallb map total fold_right blabelled]. fold (total (map it_count items)).
    destruct (Nat.ltb_spec 128 (num_vals (it_rows it))), (Nat.leb_spec (num_vals (it_rows it)) 128); try lia; cbn [andb].
    { eexists; reflexivity. }
    unfold be_add_rows.
    destruct (N.leb_spec (N.of_nat (it_count it)) u32_max); cbn [bind].
    2:{ destruct (N.leb_spec (rows + (N.of_nat (it_count it) + total (map it_count items))) u32_max); [lia|].
        rewrite andb_false_r. eexists; reflexivity. }
    destruct (N.leb_spec (rows + N.of_nat (it_count it)) u32_max) as [L|L]; cbn [bind].
    2:{ destruct (N.leb_spec (rows + (N.of_nat (it_count it) + total (map it_count items))) u32_max); [lia|].
        rewrite andb_false_r. eexists; reflexivity. }
    unfold collect at 1 3.
    specialize (IH (rows + N.of_nat (it_count it))%N (acc ++ [((rows + N.of_nat (it_count it) - 1)%N, bin_block nl (it_rows it) (it_extra it))]) L).
    rewrite N.add_assoc. destruct (forallb _ items && _).
    + rewrite IH. rewrite <- app_assoc. reflexivity.
    + exact IH.
Qed.

(** What a new column writes. *)
Definition bin_blocks (p : profile) (nl : bool) (B : N) (rowss : list (list row)) : list bin_item * option panic_kind :=
  let r := bin_run p nl B [] [] rowss in
  match snd (snd r) with
  | Held R => (fst (snd r) ++ bin_last nl (fst r) R, None)
  | Stuck k => (fst (snd r), Some k)
  end.

Lemma be_column_ok p B nl bufs rowss : (0 < B)%N ->
  Forall2 (fun b r => bb_holds b nl r) bufs rowss ->
  Forall (fun r => B + N.of_nat (bytes_of r) <= u32_max)%N rowss ->
  (N.of_nat (sum_len rowss) <= 2 ^ 32 - 2)%N ->
  let r := bin_blocks p nl B rowss in
  if writable 0 (fst r) then
    be_column p B nl bufs = match snd r with None => Ret (blabelled nl 0 (fst r), Ok tt) | Some k => Panic k end
  else is_panic (be_column p B nl bufs).
Proof.
  intros HB HH HF HL. pose proof (be_finish_ok collect p B nl bufs rowss [] HB HH HF HL) as PF. cbn zeta in PF |- *.
  unfold bin_blocks, be_column. destruct (bin_run p nl B [] [] rowss) as [past [its en]]. cbn [fst snd] in *.
  destruct en as [R|k]; cbn [fst snd].
  - pose proof (bemits_collect nl (its ++ bin_last nl past R) 0%N [] ltac:(unfold u32_max; lia)) as BC.
    unfold sink_fn in *. destruct (writable 0 _).
    + rewrite BC in PF. destruct PF as (e' & ->). reflexivity.
    + destruct BC as [k BC]. rewrite BC in PF. rewrite PF. eexists; reflexivity.
  - pose proof (bemits_collect nl its 0%N [] ltac:(unfold u32_max; lia)) as BC.
    unfold sink_fn in *. destruct (writable 0 _).
    + rewrite BC in PF. rewrite PF. reflexivity.
    + destruct BC as [k' BC]. rewrite BC in PF. rewrite PF. eexists; reflexivity.
Qed.

Lemma bb_fill_ok nl rowss : Forall (rows_allowed nl) rowss ->
  Forall (fun r => N.of_nat (bytes_of r) <= u32_max)%N rowss ->
  exists bufs, bb_fill nl rowss = Ret bufs /\ Forall2 (fun b r => bb_holds b nl r) bufs rowss.
Proof.
  induction rowss as [|r rowss IH]; intros HA HF; [exists []; split; [reflexivity|constructor]|].
  apply Forall_cons_iff in HA. apply Forall_cons_iff in HF. destruct HA as [HA1 HA2], HF as [HF1 HF2].
  destruct (bb_new_rows nl r HA1 HF1) as (b & E & D & O & V). destruct (IH HA2 HF2) as (bufs & E2 & H2).
  exists (b :: bufs). cbn [bb_fill]. rewrite E, bind_ret, E2, bind_ret. split; [reflexivity|]. constructor; [|exact H2].
  split; [exact D|]. split; [exact O|]. eapply val_rep_shows; eauto.
Qed.

Lemma be_column_rows_ok p B nl rowss : (0 < B)%N -> Forall (rows_allowed nl) rowss ->
  Forall (fun r => B + N.of_nat (bytes_of r) <= u32_max)%N rowss ->
  (N.of_nat (sum_len rowss) <= 2 ^ 32 - 2)%N ->
  let r := bin_blocks p nl B rowss in
  if writable 0 (fst r) then
    be_column_rows p B nl rowss = match snd r with None => Ret (blabelled nl 0 (fst r), Ok tt) | Some k => Panic k end
  else is_panic (be_column_rows p B nl rowss).
Proof.
  intros HB HA HF HL. destruct (bb_fill_ok nl rowss HA) as (bufs & E & HH).
  { eapply Forall_impl; [|exact HF]. cbn. intros; lia. }
  unfold be_column_rows. rewrite E, bind_ret. apply be_column_ok; assumption.
Qed.
