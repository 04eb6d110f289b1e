(** Property C108: a closed and synced segment is there after a crash, whatever
    panicked (segment_writer.rs, io.rs). *)
From Verif Require Import Base BaseProofs Spec SpecRows SpecBin SpecFail Varint Buffers Observe BuffersProofs Sink PrimEnc BinEnc ReadBlock ReadBinBlock ObserveEnc RowsProofs
  BlockProofs BinBlockProofs BinEncProofs BinRunProofs PropsBin PropsBinRows Io SpecIo IoProofs PropsIo Metadata Proto SpecProto Names PropsNames Segment SpecSegment SegmentProofs SegmentRunProofs
  PropsSegment PropsSegmentEx PropsIndexErr PropsCrash PropsApart Cancel PropsCancel PropsCancelCol Caught PropsCaughtBuf PropsCaughtEnc PropsCaughtSeg PropsCaughtBin PropsCaughtFile PropsCaughtRead.
From Coq Require Import Permutation.
Open Scope nat_scope.

(** * Close and sync *)

Lemma sync_same d f w wr w1 wr1 r : opened d f w wr -> tf_busy (wr_file wr) = None -> writer_sync w wr = (w1, wr1, r) ->
  directory_after d (wd_log w1) f = directory_after d (wd_log w) f.
Proof.
  intros (_ & P & c & H) NB E. unfold writer_sync in E. destruct (tk_sync_all _ _) as [[a f1] rr] eqn:W. injection E as <- <- <-.
  rewrite <- P in H. destruct (tk_sync_all_spec _ _ _ _ _ _ _ W H) as (_ & _ & _ & _ & (k & HK) & _). unfold holds in *. unfold pending in HK. rewrite NB in HK.
  rewrite P in *. rewrite H, HK. destruct k; cbn [firstn]; rewrite app_nil_r; reflexivity.
Qed.

Lemma close_idle d fd fi w sg it w1 sg1 : fd <> fi -> opened d fd w (sg_data sg) -> opened d fi w (sg_index sg) -> segment_close w sg it = (w1, sg1, Ok tt) ->
  opened d fd w1 (sg_data sg1) /\ opened d fi w1 (sg_index sg1) /\ tf_busy (wr_file (sg_data sg1)) = None /\ tf_busy (wr_file (sg_index sg1)) = None.
Proof.
  intros NE OD OI H. unfold segment_close in H. cbn zeta in H. assert (NE' : fi <> fd) by congruence.
  match type of H with context [writer_write_block w (sg_index sg) ?b] => destruct (writer_write_block w (sg_index sg) b) as [[wa ia] [[]|]] eqn:Wa; [|discriminate] end.
  destruct (write_touch _ _ _ _ _ _ _ _ OI Wa) as (Xa & Oa & _).
  destruct (writer_write_block wa ia _) as [[wb ib] [[]|]] eqn:Wb; [|discriminate].
  destruct (write_touch _ _ _ _ _ _ _ _ Oa Wb) as (Xb & Ob & _).
  destruct (writer_flush wb ib) as [[wc ic] [[]|]] eqn:Wc; [|discriminate].
  destruct (flush_touch _ _ _ _ _ _ _ Ob Wc) as (Xc & Oc & _ & _ & Bc & _).
  assert (ODc : opened d fd wc (sg_data sg)).
  { eapply opened_other; [exact Xc|exact NE'|]. eapply opened_other; [exact Xb|exact NE'|]. eapply opened_other; [exact Xa|exact NE'|]. exact OD. }
  destruct (writer_flush wc (sg_data sg)) as [[wd dt] r] eqn:Wd. injection H as <- <- ->.
  destruct (flush_touch _ _ _ _ _ _ _ ODc Wd) as (Xd & Od & _ & _ & Bd & _). cbn [sg_data sg_index].
  split; [exact Od|]. split; [eapply opened_other; [exact Xd|exact NE|exact Oc]|]. split; [exact (Bd eq_refl)|exact (Bc eq_refl)].
Qed.

Lemma synced_survives d fd fi w sg w1 more d' : fd <> fi -> opened d fd w (sg_data sg) -> opened d fi w (sg_index sg) ->
  tf_busy (wr_file (sg_data sg)) = None -> tf_busy (wr_file (sg_index sg)) = None -> segment_sync w sg = (w1, Ok tt) ->
  Forall (fun e => event_path e <> fd /\ event_path e <> fi) more -> after_crash true d (wd_log w1 ++ more) d' ->
  d' fd = directory_after d (wd_log w) fd /\ d' fi = directory_after d (wd_log w) fi.
Proof.
  intros NE BD BI ND NI SY FM AC.
  unfold segment_sync in SY. destruct (writer_sync w (sg_index sg)) as [[wa ia] [[]|]] eqn:Sa; [|discriminate].
  destruct (sync_log _ _ _ _ _ _ BI Sa) as (la & La). destruct (sync_touch _ _ _ _ _ _ _ BI Sa) as (Xa & _).
  destruct (writer_sync wa (sg_data sg)) as [[wb db] rb] eqn:Sb. injection SY as <- ->.
  assert (Da : opened d fd wa (sg_data sg)) by (eapply opened_other; [exact Xa|congruence|exact BD]).
  destruct (sync_log _ _ _ _ _ _ Da Sb) as (lb & Lb). destruct (sync_touch _ _ _ _ _ _ _ Da Sb) as (Xb & _). pose proof Xb as (_ & mb & Lb' & Fb & _).
  assert (SD : directory_after d (wd_log wb) fd = directory_after d (wd_log w) fd).
  { rewrite (sync_same _ _ _ _ _ _ _ Da ND Sb). apply (extends_dir d fi fd _ _ Xa). congruence. }
  assert (SI : directory_after d (wd_log wb) fi = directory_after d (wd_log w) fi).
  { rewrite (extends_dir d fd fi _ _ Xb NE). apply (sync_same _ _ _ _ _ _ _ BI NI Sa). }
  rewrite <- SD, <- SI. split.
  - specialize (AC fd). change (fold_left _ _ _) with (crash_state true d fd (wd_log wb ++ more)) in AC. rewrite Lb in AC |- *. rewrite <- app_assoc in AC.
    apply crash_after_sync in AC; [|eapply Forall_impl; [|exact FM]; cbn; tauto]. rewrite AC, !directory_after_app. apply directory_after_other. eapply Forall_impl; [|exact FM]; cbn; tauto.
  - specialize (AC fi). change (fold_left _ _ _) with (crash_state true d fi (wd_log wb ++ more)) in AC. rewrite Lb', La in AC |- *. rewrite <- !app_assoc in AC.
    assert (FB : Forall (fun e => event_path e <> fi) (mb ++ more)).
    { apply Forall_app. split; [eapply Forall_impl; [|exact Fb]; cbn; intros e [-> _]; congruence|eapply Forall_impl; [|exact FM]; cbn; tauto]. }
    apply crash_after_sync in AC; [|exact FB]. rewrite AC, <- !app_assoc, !directory_after_app.
    rewrite directory_after_other by (eapply Forall_impl; [|exact FM]; cbn; tauto). reflexivity.
Qed.

(** C108: columns are written and closed, panics are caught, no call reports an
    error, and the segment is closed and synced.  If a file keeps its name once it
    was synced (C54), both files are after any crash as they were closed, provided
    nothing else writes to them. *)
Theorem C108_survives : forall d p w base info w1 sg cols w2 sg2 outs it w3 sg3 w4 more d',
  0 < wd_max w -> is_id (si_segment_id info) -> segment_new w base info = (w1, Ok sg) ->
  caught_columns p w1 sg cols = (w2, sg2, outs) -> Forall none_reported outs ->
  (forall l, Permutation l (it_columns it l)) /\ (forall l, Permutation l (it_layouts it l)) -> segment_close w2 sg2 it = (w3, sg3, Ok tt) ->
  segment_sync w3 sg3 = (w4, Ok tt) ->
  Forall (fun e => event_path e <> data_path base (si_segment_id info) /\ event_path e <> index_path base (si_segment_id info)) more ->
  after_crash true d (wd_log w4 ++ more) d' ->
  d' (data_path base (si_segment_id info)) = directory_after d (wd_log w3) (data_path base (si_segment_id info))
  /\ d' (index_path base (si_segment_id info)) = directory_after d (wd_log w3) (index_path base (si_segment_id info))
  /\ d' (data_path base (si_segment_id info)) = Some ([77; 69; 69; 82; 75; 65; 84; 95; 68; 65; 84; 65; 49]%N ++ concat (map snd (blocks_of_columns p cols)))
  /\ exists file m, d' (index_path base (si_segment_id info)) = Some file
     /\ ((N.of_nat (length file) < 18446744073709551616)%N -> read_index_file file = Some m) /\ describes_segment info (closed_anyway p cols) m.
Proof.
  intros d p w base info w1 sg cols w2 sg2 outs it w3 sg3 w4 more d' M ID NW R A O C SY FM AC. destruct (C49_distinct base _ _ ID ID) as (_ & _ & NE).
  destruct (C103_contained d p w base info w1 sg _ w2 sg2 outs it w3 sg3 M ID NW R A O C) as (_ & DD & _ & DI).
  pose proof (segment_new_ok d p _ _ _ _ _ M ID NW) as (blocks & index & B & MK & (SD & SI & PD & PI & MO)).
  destruct (caught_columns_ok d p _ _ info NE cols _ _ _ _ _ _ _ _ SD SI MO R A) as (_ & SD2 & SI2 & _).
  destruct (close_idle d _ _ _ _ _ _ _ NE (sound_opened _ _ _ _ _ SD2) (sound_opened _ _ _ _ _ SI2) C) as (OD & OI & ND & NI).
  destruct (synced_survives d _ _ _ _ _ more d' NE OD OI ND NI SY FM AC) as [ED EI]. rewrite ED, EI. auto.
Qed.
Print Assumptions C108_survives.

(** So string columns can be read again after the crash, as in C107, and the index
    file describes the columns whose close returned. *)
Theorem C108_read : forall d p w base info w1 sg cols rows w2 sg2 outs it w3 sg3 w4 more d',
  0 < wd_max w -> is_id (si_segment_id info) -> segment_new w base info = (w1, Ok sg) ->
  Forall2 column_given cols rows -> Forall (fun bs : list (list row) => N.of_nat (length (concat bs)) <= 2 ^ 32 - 8)%N rows ->
  caught_columns p w1 sg (map column_calls cols) = (w2, sg2, outs) -> Forall none_reported outs ->
  (forall l, Permutation l (it_columns it l)) /\ (forall l, Permutation l (it_layouts it l)) -> segment_close w2 sg2 it = (w3, sg3, Ok tt) ->
  segment_sync w3 sg3 = (w4, Ok tt) ->
  Forall (fun e => event_path e <> data_path base (si_segment_id info) /\ event_path e <> index_path base (si_segment_id info)) more ->
  after_crash true d (wd_log w4 ++ more) d' ->
  (exists blocks data, contents cols rows outs blocks
    /\ d' (data_path base (si_segment_id info)) = Some data
    /\ take_apart p (block_shapes blocks) (skipn 13 data) = blocks_bytes blocks)
  /\ exists file m, d' (index_path base (si_segment_id info)) = Some file
     /\ ((N.of_nat (length file) < 18446744073709551616)%N -> read_index_file file = Some m) /\ describes_segment info (closed_well cols outs) m.
Proof.
  intros d p w base info w1 sg cols rows w2 sg2 outs it w3 sg3 w4 more d' M ID NW HC HL R A O C SY FM AC.
  destruct (C108_survives d p w base info w1 sg _ w2 sg2 outs it w3 sg3 w4 more d' M ID NW R A O C SY FM AC) as (ED & EI & _).
  destruct (C107_read d p w base info w1 sg cols rows w2 sg2 outs it w3 sg3 M ID NW HC HL R A O C) as (blocks & data & CC & DD & TA & _).
  destruct (C107_contents d p w base info w1 sg cols rows w2 sg2 outs it w3 sg3 M ID NW HC R A O C) as (_ & DI).
  rewrite ED, EI. split; [|exact DI]. exists blocks, data. auto.
Qed.
Print Assumptions C108_read.

(** The segment of [C107_example], of which one close panicked, synced; another file
    written afterwards is damaged by the crash. *)
Definition crashed (log : list fs_event) : directory := fun f => if path_dec f [120]%N then Some [1; 0]%N else directory_after (fun _ => None) log f.
Definition other_file : list fs_event := [FCreate [120]%N; FAppend [120]%N [1; 2; 3]%N].

Lemma crashed_ok log : cf_cur (crash_state true (fun _ => None) [120]%N log) = Some [1; 2; 3]%N -> cf_synced (crash_state true (fun _ => None) [120]%N log) = 0 ->
  after_crash true (fun _ => None) log (crashed log).
Proof.
  intros X Y f. change (crash_leaves (crash_state true (fun _ => None) f log) (if path_dec f [120]%N then Some [1; 0]%N else directory_after (fun _ => None) log f)).
  destruct (path_dec f [120]%N) as [-> |]; [|apply crash_leaves_cur]. right. rewrite X, Y.
  split; [cbn; lia|]. intros i I. cbn in I. destruct i as [|[|i]]; [left; reflexivity|right; split; [lia|reflexivity]|lia].
Qed.

Definition synced_example : option (list (list (outcome (result unit))) * result unit * result unit * list fs_event) :=
  match segment_new ex_world ex_base ex_info with
  | (w1, Ok sg) =>
      let '(w2, sg2, outs) := caught_columns Debug w1 sg (map column_calls given_columns) in
      let '(w3, sg3, r) := segment_close w2 sg2 ex_it in
      let '(w4, r') := segment_sync w3 sg3 in
      Some (outs, r, r', wd_log w4 ++ other_file)
  | _ => None
  end.

Example C108_example : exists outs log,
  synced_example = Some (outs, Ok tt, Ok tt, log) /\ nth 1 outs [] = [Ret (Ok tt); Ret (Ok tt); Panic PAssert]
  /\ after_crash true (fun _ => None) log (crashed log)
  /\ Forall (fun e => event_path e <> data_path ex_base (si_segment_id ex_info) /\ event_path e <> index_path ex_base (si_segment_id ex_info)) other_file
  /\ option_map (fun file => map (fun b => length b) (take_apart Debug [(false, 2); (false, 1); (true, 2)] (skipn 13 file)))
       (crashed log (data_path ex_base (si_segment_id ex_info))) = Some [134; 4; 8].
Proof.
  destruct synced_example as [[[[outs r] r'] log]|] eqn:E; [|vm_compute in E; discriminate E].
  assert (E1 := f_equal (fun x => match x with Some (o, _, _, _) => nth 1 o [] | None => [] end) E).
  assert (E2 := f_equal (fun x => match x with Some (_, r, _, _) => r | None => Err end) E).
  assert (E3 := f_equal (fun x => match x with Some (_, _, r, _) => r | None => Err end) E).
  assert (E4 := f_equal (fun x => match x with Some (_, _, _, l) => l | None => [] end) E). cbv beta iota in E1, E2, E3, E4.
  exists outs, log. split; [rewrite <- E2, <- E3; vm_compute; reflexivity|]. split; [rewrite <- E1; vm_compute; reflexivity|]. rewrite <- E4. clear. split; [|split].
  - apply crashed_ok; vm_compute; reflexivity.
  - constructor; [split; vm_compute; discriminate|]. constructor; [split; vm_compute; discriminate|constructor].
  - vm_compute. reflexivity.
Qed.
