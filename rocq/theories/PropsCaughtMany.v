(** Property C98 when panics are caught: a crash while any number of segments are
    being written, in which calls fail and panic (segment_writer.rs). *)
From Verif Require Import Base BaseProofs Buffers Sink PrimEnc BinEnc Io SpecIo IoProofs PropsIo Metadata Proto SpecProto ProtoProofs ReadBlock BlockProofs Names PropsNames Segment SpecSegment
  SegmentProofs SegmentRunProofs PropsSegment PropsSegmentEx PropsSegmentRef PropsCrash PropsReadBack TimingProofs PropsTimingCrash PropsCursor PropsMany PropsIndexErr PropsDespite
  PropsApart Cancel PropsCancel PropsCancelCol Caught PropsCaughtSeg PropsCaughtBin PropsCaughtFile PropsCaughtCrash PropsCaughtTorn PropsCaughtDespite.
From Coq Require Import Permutation.
Open Scope nat_scope.

(** The effects of a segment whose creation may fail and whose calls may panic; it
    may be synced at the end. *)
Definition caught_effects (base : path) (j : job) (effects : list fs_event) : Prop :=
  wd_log (jb_world j) = [] /\ 0 < wd_max (jb_world j)
  /\ exists w1 r, segment_new (jb_world j) base (jb_info j) = (w1, r)
     /\ match r with
        | Err => effects = wd_log w1
        | Ok sg => exists w2 sg2 outs, caught_seg (jb_profile j) w1 sg (jb_ops j) = (w2, sg2, outs)
            /\ (effects = wd_log w2 \/ exists w3 r3, segment_sync w2 sg2 = (w3, r3) /\ effects = wd_log w3)
        end.

(** It is anywhere in its work. *)
Definition caught_so_far (base : path) (j : job) (effects : list fs_event) : Prop := exists rest, caught_effects base j (effects ++ rest).

Lemma touched_none P w w1 l rest f : touches P w w1 -> wd_log w = [] -> ~ P f -> l ++ rest = wd_log w1 -> events f l = [].
Proof.
  intros (m & L & F) L0 NP E. rewrite L0 in L. cbn [app] in L. rewrite L in E. rewrite <- E in F. apply Forall_app in F. apply events_none.
  eapply Forall_impl; [|exact (proj1 F)]. cbn. intros e H Q. apply NP. rewrite <- Q. exact H.
Qed.

Lemma caught_so_far_own base j l f : is_id (si_segment_id (jb_info j)) -> caught_so_far base j l -> f <> job_data base j -> f <> job_index base j -> events f l = [].
Proof.
  intros ID (rest & L0 & M & w1 & r & NW & E) N1 N2. unfold job_data, job_index in N1, N2. destruct (C49_distinct base _ _ ID ID) as (_ & _ & NE).
  destruct (segment_new_touches (fun _ => None) _ _ _ _ _ M ID NW) as (T & B).
  set (own := fun g => g = data_path base (si_segment_id (jb_info j)) \/ g = index_path base (si_segment_id (jb_info j))).
  assert (NP : ~ own f) by (unfold own; tauto).
  destruct r as [sg|]; [|exact (touched_none own _ _ _ _ _ T L0 NP E)].
  destruct E as (w2 & sg2 & outs & R & E). destruct (caught_seg_touches (fun _ => None) (jb_profile j) _ _ NE _ _ _ _ _ _ B R) as (T2 & B2).
  pose proof (touches_trans own _ _ _ T T2) as T3. destruct E as [E|(w3 & r3 & S3 & E)]; [exact (touched_none own _ _ _ _ _ T3 L0 NP E)|].
  exact (touched_none own _ _ _ _ _ (touches_trans own _ _ _ T3 (segment_sync_touches (fun _ => None) _ _ NE _ _ _ _ B2 S3)) L0 NP E).
Qed.

(** C98, with panics. *)
Theorem C98_caught : forall sn d base jobs logs done d',
  Forall (fun j => is_id (si_segment_id (jb_info j))) jobs ->
  NoDup (map (fun j => si_segment_id (jb_info j)) jobs) ->
  Forall2 (caught_so_far base) jobs logs -> mixed logs done ->
  after_crash sn d done d' <->
    (forall i j l, nth_error jobs i = Some j -> nth_error logs i = Some l ->
       exists d1, after_crash sn d l d1
         /\ d' (data_path base (si_segment_id (jb_info j))) = d1 (data_path base (si_segment_id (jb_info j)))
         /\ d' (index_path base (si_segment_id (jb_info j))) = d1 (index_path base (si_segment_id (jb_info j))))
    /\ (forall f, (forall j, In j jobs -> f <> data_path base (si_segment_id (jb_info j)) /\ f <> index_path base (si_segment_id (jb_info j))) ->
          d' f = d f).
Proof. intros sn d base jobs logs done d' H1 H2 H3 H4. exact (crash_many base jobs logs done H1 H2 (caught_so_far base) (caught_so_far_own base) H3 H4 sn d d'). Qed.
Print Assumptions C98_caught.

(** One that was closed and synced is whole, whatever panicked in it and whatever
    the others were doing, if no call on its columns reported an error (and if a sync
    also makes the name of the file durable, see C54). *)
Theorem C98_caught_synced : forall d base jobs logs done d' i j w1 sg cols w2 sg2 outs it w3 sg3 w4,
  Forall (fun j => is_id (si_segment_id (jb_info j))) jobs ->
  NoDup (map (fun j => si_segment_id (jb_info j)) jobs) ->
  Forall2 (caught_so_far base) jobs logs -> mixed logs done -> after_crash true d done d' ->
  nth_error jobs i = Some j -> nth_error logs i = Some (wd_log w4) ->
  0 < wd_max (jb_world j) -> segment_new (jb_world j) base (jb_info j) = (w1, Ok sg) ->
  caught_columns (jb_profile j) w1 sg cols = (w2, sg2, outs) -> Forall none_reported outs ->
  (forall l, Permutation l (it_columns it l)) /\ (forall l, Permutation l (it_layouts it l)) -> segment_close w2 sg2 it = (w3, sg3, Ok tt) ->
  segment_sync w3 sg3 = (w4, Ok tt) ->
  d' (data_path base (si_segment_id (jb_info j))) = Some ([77; 69; 69; 82; 75; 65; 84; 95; 68; 65; 84; 65; 49]%N ++ concat (map snd (blocks_of_columns (jb_profile j) cols)))
  /\ exists file m, d' (index_path base (si_segment_id (jb_info j))) = Some file
     /\ ((N.of_nat (length file) < 18446744073709551616)%N -> read_index_file file = Some m)
     /\ describes_segment (jb_info j) (closed_anyway (jb_profile j) cols) m.
Proof.
  intros d base jobs logs done d' i j w1 sg cols w2 sg2 outs it w3 sg3 w4 H1 H2 H3 H4 AC J L M NW R A O C SY.
  destruct (proj1 (crash_many base jobs logs done H1 H2 (caught_so_far base) (caught_so_far_own base) H3 H4 true d d') AC) as [P _]. destruct (P i j _ J L) as (d1 & A1 & D1 & D2).
  unfold job_data, job_index in D1, D2. rewrite D1, D2. rewrite <- (app_nil_r (wd_log w4)) in A1.
  exact (proj2 (proj2 (C108_survives d _ _ base _ w1 sg cols w2 sg2 outs it w3 sg3 w4 [] d1 M (nth_id jobs H1 i j J) NW R A O C SY (Forall_nil _) A1))).
Qed.
Print Assumptions C98_caught_synced.

(** The effects without panics (C98) are among these. *)
Theorem C98_not_caught : forall base j effects, so_far base j effects -> caught_so_far base j effects.
Proof.
  intros base j effects (rest & [(L & M & w1 & sg & w2 & sg2 & rs & NW & R & E)|(L & M & w1 & NW & E)]); exists rest; (split; [exact L|]; split; [exact M|]).
  - exists w1, (Ok sg). split; [exact NW|]. destruct (caught_seg_runs _ _ _ _ _ _ _ R) as (outs & RC & _). exists w2, sg2, outs. auto.
  - exists w1, Err. auto.
Qed.
Print Assumptions C98_not_caught.

(** Two segments: in the first a close panicked, it is closed and synced; in the
    second a call failed, another one panicked, and it is not finished.  A crash
    takes the data file of the second. *)
Definition caught_first : job := mkjob Debug ex_world ex_info (map (fun c => SColumn (fst c) (snd c)) (map column_calls given_columns) ++ [SClose ex_it]).
Definition caught_second : job := mkjob Debug (mkworld [] [None; None; None; None; None; Some 0] 50) ex_info2 ex_mixed.

Definition caught_log (j : job) : list fs_event * result unit :=
  match segment_new (jb_world j) ex_base (jb_info j) with
  | (w1, Ok sg) => let '(w2, sg2, outs) := caught_seg (jb_profile j) w1 sg (jb_ops j) in let '(w3, r) := segment_sync w2 sg2 in (wd_log w3, r)
  | (w1, Err) => (wd_log w1, Err)
  end.

Lemma caught_log_effects j : wd_log (jb_world j) = [] -> 0 < wd_max (jb_world j) -> caught_effects ex_base j (fst (caught_log j)).
Proof.
  intros L M. split; [exact L|]. split; [exact M|]. unfold caught_log. destruct (segment_new (jb_world j) ex_base (jb_info j)) as [w1 r]. exists w1, r. split; [reflexivity|].
  destruct r as [sg|]; [|reflexivity]. destruct (caught_seg (jb_profile j) w1 sg (jb_ops j)) as [[w2 sg2] outs]. exists w2, sg2, outs. split; [reflexivity|]. right.
  destruct (segment_sync w2 sg2) as [w3 r3]. exists w3, r3. split; reflexivity.
Qed.

Definition caught_done : list fs_event := zip (fst (caught_log caught_first)) (zip (firstn 6 (fst (caught_log caught_second))) []).
Definition caught_left : directory := fun f =>
  if path_dec f (data_path ex_base (si_segment_id ex_info2)) then None else directory_after (fun _ => None) caught_done f.

Example C98_caught_example :
  Forall2 (caught_so_far ex_base) [caught_first; caught_second] [fst (caught_log caught_first); firstn 6 (fst (caught_log caught_second))]
  /\ mixed [fst (caught_log caught_first); firstn 6 (fst (caught_log caught_second))] caught_done
  /\ snd (caught_log caught_first) = Ok tt
  /\ after_crash true (fun _ => None) caught_done caught_left
  /\ option_map (fun file => map (fun b => length b) (take_apart Debug [(false, 2); (false, 1); (true, 2)] (skipn 13 file)))
       (caught_left (data_path ex_base (si_segment_id ex_info))) = Some [134; 4; 8]
  /\ caught_left (data_path ex_base (si_segment_id ex_info2)) = None
  /\ caught_left (index_path ex_base (si_segment_id ex_info2)) <> None.
Proof.
  split; [|split; [|split; [vm_compute; reflexivity|split]]].
  - constructor; [|constructor; [|constructor]].
    + exists []. rewrite app_nil_r. apply caught_log_effects; [reflexivity|cbn; lia].
    + exists (skipn 6 (fst (caught_log caught_second))). rewrite firstn_skipn. apply caught_log_effects; [reflexivity|cbn; lia].
  - econstructor; [econstructor; [constructor|apply zip_interleaved]|apply zip_interleaved].
  - apply (crash_takes true (fun _ => None) (data_path ex_base (si_segment_id ex_info2)) caught_done). vm_compute. left. right. exact I.
  - split; [vm_compute; reflexivity|]. split; [vm_compute; reflexivity|]. vm_compute. discriminate.
Qed.
