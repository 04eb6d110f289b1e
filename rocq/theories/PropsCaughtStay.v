(** Property C66 when panics are caught: what was read once can be read again
    (segment_writer.rs, io/unix_disk_block_reader.rs). *)
From Verif Require Import Base BaseProofs Buffers Sink PrimEnc BinEnc Io SpecIo IoProofs IoReadProofs PropsIo Metadata Proto SpecProto ProtoProofs ReadBlock BlockProofs Names PropsNames Segment SpecSegment
  SegmentProofs SegmentRunProofs PropsSegment PropsSegmentEx PropsSegmentRef PropsReadBack PropsIndexErr PropsDespite Cancel PropsCancel PropsCancelCol Caught PropsCaughtSeg PropsCaughtTorn PropsCaughtDespite PropsEarly.
Open Scope nat_scope.

Lemma caught_seg_grows d p fd fi (NE : fd <> fi) ops : forall w sg w1 sg1 outs, both_open d fd fi w sg -> caught_seg p w sg ops = (w1, sg1, outs) ->
  grows (fun f => f = fd \/ f = fi) w w1 /\ both_open d fd fi w1 sg1.
Proof.
  induction ops as [|op ops IH]; intros w sg w1 sg1 outs B H; cbn [caught_seg] in H; [injection H as <- <- <-; split; [apply grows_refl|exact B]|].
  destruct (match op with SColumn ci cops => _ | SClose it => _ end) as [[wa sa] oa] eqn:E.
  destruct (caught_seg p wa sa ops) as [[wb sb] more] eqn:R. injection H as <- <- <-.
  assert (K : grows (fun f => f = fd \/ f = fi) w wa /\ both_open d fd fi wa sa).
  { destruct op as [ci cops|it].
    - destruct B as [BD BI]. destruct (caught_columns p w sg [(ci, cops)]) as [[wx sx] ox] eqn:CC. pose proof CC as CC0. cbn [caught_columns] in CC0. fold (caught_column p w sg ci cops) in CC0.
      rewrite E in CC0. injection CC0 as <- <- _. destruct (caught_columns_touch d p fd _ _ _ _ _ _ BD CC) as (X & OD & EI).
      split; [eapply extends_grows; [exact X|left; reflexivity]|split; [exact OD|]; rewrite EI; eapply opened_other; eassumption].
    - destruct (segment_close w sg it) as [[wx sx] r] eqn:C. injection E as <- <- <-. apply (seg_run_grows d p fd fi NE [SClose it] w sg wx sx [r] B). cbn [seg_run seg_step]. rewrite C. reflexivity. }
  destruct K as (K1 & K2). destruct (IH _ _ _ _ _ K2 R) as (K3 & K4). split; [eapply grows_trans; eassumption|exact K4].
Qed.

(** C66, with panics: once a range could be read, from either file, it reads the same
    whatever is called later, and whatever fails or panics; also after a sync. *)
Theorem C66_caught : forall d p w base info w1 sg ops w2 sg2 outs more w3 sg3 outs3 w4 f file2 q plan s e block,
  0 < wd_max w -> is_id (si_segment_id info) -> segment_new w base info = (w1, Ok sg) ->
  caught_seg p w1 sg ops = (w2, sg2, outs) -> caught_seg p w2 sg2 more = (w3, sg3, outs3) -> (w4 = w3 \/ exists r4, segment_sync w3 sg3 = (w4, r4)) ->
  directory_after d (wd_log w2) f = Some file2 -> (s < u64_lim)%N -> (e < u64_lim)%N -> read_block q file2 plan s e = Ret (Ok block) ->
  exists added, directory_after d (wd_log w4) f = Some (file2 ++ added) /\ (file_ok (file2 ++ added) -> reads_as_block (file2 ++ added) (s, e) block).
Proof.
  intros d p w base info w1 sg ops w2 sg2 outs more w3 sg3 outs3 w4 f file2 q plan s e block M ID NW R1 R2 SY D2 Hs He RB.
  destruct (C49_distinct base _ _ ID ID) as (_ & _ & NE). destruct (segment_new_touches d _ _ _ _ _ M ID NW) as (_ & B).
  destruct (caught_seg_grows d p _ _ NE _ _ _ _ _ _ B R1) as (_ & B2). destruct (caught_seg_grows d p _ _ NE _ _ _ _ _ _ B2 R2) as (G & B3).
  assert (G4 : grows (fun g => g = data_path base (si_segment_id info) \/ g = index_path base (si_segment_id info)) w2 w4).
  { destruct SY as [->|(r4 & SY)]; [exact G|]. eapply grows_trans; [exact G|]. exact (segment_sync_grows d _ _ NE _ _ _ _ B3 SY). }
  destruct (grows_dir _ d _ _ f file2 G4 D2) as [added D4]. exists added. split; [exact D4|]. intros F q' plan'. cbn [fst snd].
  assert (F2 : file_ok file2) by (unfold file_ok in *; rewrite app_length in F; lia).
  destruct (read_block_spec q file2 plan s e F2 Hs He) as (r & E & HO & _). rewrite RB in E. injection E as <-. destruct (HO _ eq_refl) as (EB & RG).
  destruct (read_block_spec q' (file2 ++ added) plan' s e F Hs He) as (r' & E' & HO' & HE'). rewrite E'. destruct r' as [bs|].
  - left. f_equal. f_equal. destruct (HO' _ eq_refl) as (-> & _). rewrite EB. destruct RG as [->|[L1 L2]]; [rewrite N.sub_diag; reflexivity|].
    rewrite skipn_app, firstn_app, skipn_length.
    replace (N.to_nat (e - s) - (length file2 - N.to_nat s)) with 0 by lia. cbn [firstn]. apply app_nil_r.
  - right. split; [reflexivity|]. destruct (HE' eq_refl) as [L|P]; [|exact P]. exfalso. rewrite app_length in L. lia.
Qed.
Print Assumptions C66_caught.

(** The history of [C75_caught_example], with errors and a panic: the range 13..151 is
    read after the step that panics, and again at the end, when the file is longer. *)
Definition ex_stay (n : nat) : option (list (list (outcome (result unit))) * option (list N)) :=
  match segment_new (mkworld [] [None; None; None; None; None; Some 0] 50) ex_base ex_info with
  | (w1, Ok sg) => let '(w2, sg2, outs) := caught_seg Debug w1 sg (firstn n ex_mixed) in Some (outs, directory_after (fun _ => None) (wd_log w2) (data_path ex_base (si_segment_id ex_info)))
  | _ => None
  end.

Example C66_caught_example :
  match ex_stay 2, ex_stay 6 with
  | Some (outs, Some file2), Some (outs6, Some file6) =>
      nth 2 (nth 1 outs []) (Ret Err) = Panic PAssert /\ nth 1 (nth 0 outs []) (Ret (Ok tt)) = Ret Err /\ length file2 = 213 /\ length file6 = 257
      /\ read_block Debug file2 [] 13 151 = Ret (Ok (firstn 138 (skipn 13 file2))) /\ read_block Release file6 [PShort 5] 13 151 = Ret (Ok (firstn 138 (skipn 13 file2)))
  | _, _ => False
  end.
Proof. vm_compute. repeat split. Qed.
