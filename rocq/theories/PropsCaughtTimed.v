(** Property C108 with background writes at any moment: a closed and synced segment is
    there after a crash, whatever panicked (segment_writer.rs, io/default_block_writer.rs). *)
From Verif Require Import Base BaseProofs Spec SpecRows SpecBin SpecFail Varint Buffers Observe BuffersProofs Sink PrimEnc BinEnc ReadBlock ReadBinBlock ObserveEnc RowsProofs
  BlockProofs BinBlockProofs BinEncProofs BinRunProofs PropsBin PropsBinRows Io SpecIo IoProofs PropsIo Metadata Proto SpecProto Names PropsNames Segment SpecSegment SegmentProofs SegmentRunProofs
  PropsSegment PropsSegmentEx PropsIndexErr PropsCrash PropsApart Cancel PropsCancel PropsCancelCol Caught PropsCaughtBuf PropsCaughtEnc PropsCaughtSeg PropsCaughtBin PropsCaughtFile PropsCaughtRead
  PropsCaughtCrash PropsCaughtDespite Timing TimingProofs TimingSegment PropsTiming PropsCaughtTiming.
From Coq Require Import Permutation.
Open Scope nat_scope.

(** Columns and then a close. *)
Definition then_close (cols : list (column_info * list col_op)) (it : iteration) : list seg_op := map (fun c => SColumn (fst c) (snd c)) cols ++ [SClose it].

Lemma program_closed p w base info cols it w1 outs : caught_program p w base info (then_close cols it) = (w1, Ok (outs ++ [[Ret (Ok tt)]], Ok tt)) ->
  exists wa sg wb sgb wc sgc, segment_new w base info = (wa, Ok sg) /\ caught_columns p wa sg cols = (wb, sgb, outs) /\ segment_close wb sgb it = (wc, sgc, Ok tt) /\ segment_sync wc sgc = (w1, Ok tt).
Proof.
  unfold caught_program, then_close. destruct (segment_new w base info) as [wa [sg|]] eqn:NW; [|discriminate]. rewrite caught_seg_app, caught_seg_columns.
  destruct (caught_columns p wa sg cols) as [[wb sgb] ob] eqn:CC. cbn [caught_seg]. destruct (segment_close wb sgb it) as [[wc sgc] r] eqn:SC. destruct (segment_sync wc sgc) as [wd rd] eqn:SY.
  intros E. injection E as <- E ->. apply app_inj_tail in E. destruct E as [<- E]. injection E as ->. exists wa, sg, wb, sgb, wc, sgc. auto.
Qed.

(** C108 for every schedule of the background threads, as in Timing.v: if the close and
    the sync reported no error, a crash leaves the values of all string columns, given
    which of their calls panicked, and the metadata. *)
Theorem C108_any_timing : forall d p w base info cols rows it timing st outs more d',
  0 < wd_max w -> is_id (si_segment_id info) ->
  Forall2 column_given cols rows -> Forall (fun bs : list (list row) => N.of_nat (length (concat bs)) <= 2 ^ 32 - 8)%N rows ->
  (forall l, Permutation l (it_columns it l)) /\ (forall l, Permutation l (it_layouts it l)) ->
  bg_client (caught_client p base info (then_close (map column_calls cols) it)) (bg_none w timing) = Some (st, Ret (Ok (outs ++ [[Ret (Ok tt)]], Ok tt))) -> Forall none_reported outs ->
  Forall (fun e => event_path e <> data_path base (si_segment_id info) /\ event_path e <> index_path base (si_segment_id info)) more ->
  after_crash true d (wd_log (bs_os st) ++ more) d' ->
  (exists blocks data, contents cols rows outs blocks
    /\ d' (data_path base (si_segment_id info)) = Some data
    /\ take_apart p (block_shapes blocks) (skipn 13 data) = blocks_bytes blocks)
  /\ exists file m, d' (index_path base (si_segment_id info)) = Some file
     /\ ((N.of_nat (length file) < 18446744073709551616)%N -> read_index_file file = Some m) /\ describes_segment info (closed_well cols outs) m.
Proof.
  intros d p w base info cols rows it timing st outs more d' M ID HC HL O BG A FM AC.
  destruct (C76_caught_crash p w base info (then_close (map column_calls cols) it) timing ID) as (st' & out & plan & w1 & BG' & CP & EQ). rewrite BG in BG'. injection BG' as <- <-.
  apply (EQ _ eq_refl) in AC. destruct (program_closed _ _ _ _ _ _ _ _ CP) as (wa & sg & wb & sgb & wc & sgc & NW & CC & SC & SY).
  eapply (C108_read d p (mkworld (wd_log w) plan (wd_max w)) base info wa sg cols rows wb sgb outs it wc sgc w1 more d'); eassumption.
Qed.
Print Assumptions C108_any_timing.

(** C103 for every schedule: with any calls on any columns, what the files have depends
    on the calls only. *)
Theorem C103_any_timing : forall d p w base info cols it timing st outs,
  0 < wd_max w -> is_id (si_segment_id info) -> (forall l, Permutation l (it_columns it l)) /\ (forall l, Permutation l (it_layouts it l)) ->
  bg_client (caught_client p base info (then_close cols it)) (bg_none w timing) = Some (st, Ret (Ok (outs ++ [[Ret (Ok tt)]], Ok tt))) -> Forall none_reported outs ->
  outs = map (fun c => snd (column_alone p c)) cols
  /\ directory_after d (wd_log (bs_os st)) (data_path base (si_segment_id info))
     = Some ([77; 69; 69; 82; 75; 65; 84; 95; 68; 65; 84; 65; 49]%N ++ concat (map snd (blocks_of_columns p cols)))
  /\ exists file m, directory_after d (wd_log (bs_os st)) (index_path base (si_segment_id info)) = Some file
     /\ ((N.of_nat (length file) < 18446744073709551616)%N -> read_index_file file = Some m) /\ describes_segment info (closed_anyway p cols) m.
Proof.
  intros d p w base info cols it timing st outs M ID O BG A.
  destruct (C76_caught p w base info (then_close cols it) timing ID) as (st' & out & plan & w1 & BG' & CP & EQ). rewrite BG in BG'. injection BG' as <- <-.
  specialize (EQ _ eq_refl d). destruct (program_closed _ _ _ _ _ _ _ _ CP) as (wa & sg & wb & sgb & wc & sgc & NW & CC & SC & SY).
  destruct (C103_contained d p (mkworld (wd_log w) plan (wd_max w)) base info wa sg cols wb sgb outs it wc sgc M ID NW CC A O SC) as (EO & _).
  assert (AC : after_crash true d (wd_log w1 ++ []) (directory_after d (wd_log w1))) by (rewrite app_nil_r; intros f; apply crash_leaves_cur).
  destruct (C108_survives d p (mkworld (wd_log w) plan (wd_max w)) base info wa sg cols wb sgb outs it wc sgc w1 [] _ M ID NW CC A O SC SY (Forall_nil _) AC) as (_ & _ & DD & DI).
  split; [exact EO|]. rewrite !(proj2 (EQ _)). split; [exact DD|exact DI].
Qed.
Print Assumptions C103_any_timing.

(** The segment of [C108_example] with the timing of [C76_segment_witness]; another
    file written afterwards is damaged by the crash. *)
Definition timed_example : option (result (list (list (outcome (result unit))) * result unit) * list fs_event) :=
  match bg_client (caught_client Debug ex_base ex_info (then_close (map column_calls given_columns) ex_it)) (bg_none (mkworld [] [] 20) [[]; []; []; [0]; [1]; [1]; [0]; [1]; [0; 1]; [1]; [0]; [0]; [1]]) with
  | Some (st, Ret out) => Some (out, wd_log (bs_os st) ++ other_file)
  | _ => None
  end.

Example C108_timing_example : exists outs log,
  timed_example = Some (Ok (outs ++ [[Ret (Ok tt)]], Ok tt), log) /\ nth 1 outs [] = [Ret (Ok tt); Ret (Ok tt); Panic PAssert] /\ Forall none_reported outs
  /\ nth 2 log (FSync []) = FAppend (index_path ex_base (si_segment_id ex_info)) index_file_signature
  /\ after_crash true (fun _ => None) log (crashed log)
  /\ option_map (fun file => map (fun b => length b) (take_apart Debug [(false, 2); (false, 1); (true, 2)] (skipn 13 file)))
       (crashed log (data_path ex_base (si_segment_id ex_info))) = Some [134; 4; 8].
Proof.
  destruct timed_example as [[out log]|] eqn:E; [|vm_compute in E; discriminate E].
  assert (E1 := f_equal (fun x => match x with Some (o, _) => o | None => Err end) E).
  assert (E4 := f_equal (fun x => match x with Some (_, l) => l | None => [] end) E). cbv beta iota in E1, E4.
  exists (match out with Ok (o, _) => removelast o | Err => [] end), log. rewrite <- E1, <- E4. clear.
  split; [vm_compute; reflexivity|]. split; [vm_compute; reflexivity|]. split; [vm_compute; repeat constructor; discriminate|]. split; [vm_compute; reflexivity|]. split; [|vm_compute; reflexivity].
  apply crashed_ok; vm_compute; reflexivity.
Qed.
