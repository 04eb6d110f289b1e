(** Property C69 when panics are caught: whatever fails or panics, a segment that was
    never closed leaves no index file that can be read (segment_writer.rs, io.rs). *)
From Verif Require Import Base BaseProofs Spec SpecRows SpecBin SpecFail Varint Buffers Observe BuffersProofs Sink PrimEnc BinEnc ReadBlock ReadBinBlock ObserveEnc RowsProofs
  BlockProofs BinBlockProofs BinEncProofs BinRunProofs PropsBin PropsBinRows Io SpecIo IoProofs PropsIo Metadata Proto SpecProto Names PropsNames Segment SpecSegment SegmentProofs SegmentRunProofs
  PropsSegment PropsSegmentEx PropsIndexErr PropsCrash PropsSegmentRef PropsTorn PropsApart Cancel PropsCancel PropsCancelCol Caught PropsCaughtBuf PropsCaughtEnc PropsCaughtSeg PropsCaughtBin PropsCaughtFile.
Open Scope nat_scope.

(** * Calls on columns write to the data file only *)

Lemma handed_touch {A} d fd w wr bi done last w1 wr1 bi1 (o : outcome (result A)) : opened d fd w wr ->
  hands_at sink_write (w, wr, bi) done last (w1, wr1, bi1) o -> extends fd w w1 /\ opened d fd w1 wr1.
Proof.
  intros OD (([wa wra] & bia) & F & L). destruct (feed_touch d fd _ _ _ _ _ _ _ _ F OD) as (Xa & Oa). destruct last as [[r b]|].
  - destruct L as [L _]. assert (F1 : SegmentProofs.feed sink_write (wa, wra, bia) [(r, b)] = ((w1, wr1, bi1), Err)) by (cbn [SegmentProofs.feed]; rewrite L; reflexivity).
    destruct (feed_touch d fd _ _ _ _ _ _ _ _ F1 Oa) as (Xb & Ob). split; [eapply extends_trans; eassumption|exact Ob].
  - destruct L as [L _]. injection L as -> -> ->. auto.
Qed.

Lemma caught_step_touch d p fd w sg cw op w1 sg1 cw1 o : opened d fd w (sg_data sg) -> caught_step p w sg cw op = ((w1, sg1, cw1), o) ->
  extends fd w w1 /\ opened d fd w1 (sg_data sg1) /\ sg_index sg1 = sg_index sg.
Proof.
  intros OD H. destruct op as [b|]; cbn [caught_step] in H.
  - unfold column_write_at in H. cbn zeta in H. destruct (bin_encode_sinkless p (cw_encoder cw) b _ sink_write (w, sg_data sg, sg_block_index sg)) as (done & last & HH & _). cbv beta in HH.
    destruct (bin_encode_at sink_write p (cw_encoder cw) b _) as [[e [[wa dt] bi]] r]. cbn [fst snd] in *. injection H as <- <- <- <-.
    destruct (handed_touch d fd _ _ _ _ _ _ _ _ _ OD HH) as (X & O1). cbn [sg_data sg_index]. auto.
  - unfold column_close_at in H. cbn zeta in H. destruct (bin_flush_sinkless p (cw_encoder cw) _ sink_write (w, sg_data sg, sg_block_index sg)) as (done & last & HH & _). cbv beta in HH.
    destruct (bin_flush_at sink_write p (cw_encoder cw) _) as [[e [[wa dt] bi]] r]. cbn [fst snd] in *.
    destruct (handed_touch d fd _ _ _ _ _ _ _ _ _ OD HH) as (X & O1).
    assert (Z : w1 = wa /\ sg_data sg1 = dt /\ sg_index sg1 = sg_index sg).
    { destruct r as [[lay|]|j|]; cbn [pure] in H; [destruct (md_segment_meta (sg_meta sg))|..]; injection H as <- <- _ _; auto. }
    destruct Z as (-> & -> & ->). auto.
Qed.

Lemma caught_run_touch d p fd ops : forall w sg cw w1 sg1 outs, opened d fd w (sg_data sg) -> caught_run p w sg cw ops = (w1, sg1, outs) ->
  extends fd w w1 /\ opened d fd w1 (sg_data sg1) /\ sg_index sg1 = sg_index sg.
Proof.
  induction ops as [|op ops IH]; intros w sg cw w1 sg1 outs OD H; cbn [caught_run] in H.
  - injection H as <- <- _. split; [apply extends_refl|auto].
  - cbn zeta in H. destruct (caught_step p w sg cw op) as [[[wa sa] ca] o] eqn:E. cbn [fst snd] in H. destruct (caught_run p wa sa ca ops) as [[wb sb] more] eqn:R. injection H as <- <- _.
    destruct (caught_step_touch d p fd _ _ _ _ _ _ _ _ OD E) as (Xa & Oa & Ia). destruct (IH _ _ _ _ _ _ Oa R) as (Xb & Ob & Ib).
    split; [eapply extends_trans; eassumption|]. split; [exact Ob|congruence].
Qed.

Lemma caught_columns_touch d p fd cols : forall w sg w1 sg1 outs, opened d fd w (sg_data sg) -> caught_columns p w sg cols = (w1, sg1, outs) ->
  extends fd w w1 /\ opened d fd w1 (sg_data sg1) /\ sg_index sg1 = sg_index sg.
Proof.
  induction cols as [|[ci ops] cols IH]; intros w sg w1 sg1 outs OD H; cbn [caught_columns] in H.
  - injection H as <- <- _. split; [apply extends_refl|auto].
  - destruct (new_binary_column_writer sg ci) as [sn rn] eqn:NW.
    assert (SN : sg_data sn = sg_data sg /\ sg_index sn = sg_index sg) by (unfold new_binary_column_writer in NW; injection NW as <- _; auto). destruct SN as [SN SI].
    destruct (match rn with Ok cw => caught_run p w sn cw ops | Err => (w, sn, [Ret Err]) end) as [[wa sa] oa] eqn:R.
    assert (A : extends fd w wa /\ opened d fd wa (sg_data sa) /\ sg_index sa = sg_index sg).
    { destruct rn as [cw|]; [|injection R as <- <- _; rewrite SN, SI; split; [apply extends_refl|auto]].
      rewrite <- SI. apply (caught_run_touch d p fd ops _ _ _ _ _ _) in R; [exact R|rewrite SN; exact OD]. }
    destruct A as (Xa & Oa & Ia).
    destruct (caught_columns p wa sa cols) as [[wb sb] more] eqn:RC. injection H as <- <- _.
    destruct (IH _ _ _ _ _ Oa RC) as (Xb & Ob & Ib). split; [eapply extends_trans; eassumption|]. split; [exact Ob|congruence].
Qed.

(** C69, with panics: columns are written, calls fail or panic, the panics are caught,
    and the segment is even synced, but not closed. *)
Theorem C69_caught : forall sync_names d p w base info w1 sg cols w2 sg2 outs w3 r3 log rest d' bytes,
  0 < wd_max w -> is_id (si_segment_id info) -> wd_log w = [] -> d (index_path base (si_segment_id info)) = None ->
  segment_new w base info = (w1, Ok sg) -> caught_columns p w1 sg cols = (w2, sg2, outs) -> segment_sync w2 sg2 = (w3, r3) ->
  wd_log w3 = log ++ rest -> after_crash sync_names d log d' ->
  d' (index_path base (si_segment_id info)) = Some bytes -> read_index_file bytes = None.
Proof.
  intros sn d p w base info w1 sg cols w2 sg2 outs w3 r3 log rest d' bytes M ID L0 D0 NW R S3 L3 AC DB.
  destruct (C49_distinct base _ _ ID ID) as (_ & _ & NE0). assert (NE : data_path base (si_segment_id info) <> index_path base (si_segment_id info)) by congruence.
  destruct (segment_new_index d w base info w1 _ M ID L0 D0 NW) as (CO & _ & NN & B & SM). set (fd := data_path base (si_segment_id info)) in *. set (fi := index_path base (si_segment_id info)) in *.
  destruct B as [BD BI]. destruct (caught_columns_touch d p fd _ _ _ _ _ _ BD R) as (X & OD & EI).
  assert (B2 : both_open d fd fi w2 sg2) by (split; [exact OD|]; rewrite EI; eapply opened_other; eassumption).
  assert (SM2 : index_small d fi w2 (sg_index sg2)) by (rewrite EI; eapply index_small_other; eassumption).
  destruct (segment_sync_grows d fd fi NE _ _ _ _ B2 S3) as (m & LM & FM). destruct (extends_no_create _ fi _ _ X) as (m1 & L1 & F1).
  destruct (segment_sync_index d fd fi NE _ _ _ _ B2 SM2 S3) as (c & HC & LC).
  apply small_not_index. eapply (crash_small sn d fi 12 log rest); try eassumption.
  - rewrite <- L3, LM, L1, <- app_assoc. apply created_once_app; [exact CO|left; exact NN|]. apply Forall_app. split; [exact F1|].
    eapply Forall_impl; [|exact FM]. cbn. intros e [_ Y] ->. exact (Y _ eq_refl).
  - intros c' C. rewrite <- L3 in C. unfold holds in HC. rewrite HC in C. injection C as <-. exact LC.
Qed.
Print Assumptions C69_caught.

(** The segment of [C107_example], synced but not closed: a close panicked, the data
    file has both columns, and the index file has its signature only. *)
Definition unclosed_example : option (list (outcome (result unit)) * result unit * option (list N) * option nat) :=
  match segment_new ex_world ex_base ex_info with
  | (w1, Ok sg) =>
      let '(w2, sg2, outs) := caught_columns Debug w1 sg (map column_calls given_columns) in
      let '(w3, r) := segment_sync w2 sg2 in
      Some (nth 1 outs [], r, directory_after (fun _ => None) (wd_log w3) (index_path ex_base (si_segment_id ex_info)),
            option_map (fun f => length f) (directory_after (fun _ => None) (wd_log w3) (data_path ex_base (si_segment_id ex_info))))
  | _ => None
  end.
Example C69_caught_example : exists n, unclosed_example = Some ([Ret (Ok tt); Ret (Ok tt); Panic PAssert], Ok tt, Some index_file_signature, Some n) /\ 13 < n.
Proof. eexists. split; [vm_compute; reflexivity|]. lia. Qed.
