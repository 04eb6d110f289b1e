(** C76: nor does the timing of background writes make a difference to what a
    crash may leave of a file. *)
From Verif Require Import Base BaseProofs Buffers Sink Io SpecIo IoProofs Names PropsNames Segment SpecSegment PropsCrash PropsSegmentEx
  Timing TimingProofs TimingSegment PropsTiming.
Open Scope nat_scope.

Lemma crash_events sn f log : forall c, fold_left (crash_step sn f) log c = fold_left (crash_step sn f) (events f log) c.
Proof.
  induction log as [|e log IH]; intros c; [reflexivity|]. unfold events. cbn [filter fold_left]. fold (events f log). destruct (path_dec f (event_path e)) as [EF|NF]; cbn [fold_left]; [apply IH|].
  rewrite <- IH. f_equal. destruct e as [g|g b|g]; cbn [crash_step event_path] in *; destruct (path_dec f g); congruence.
Qed.

Lemma crash_state_events sn d f a b : events f a = events f b -> crash_state sn d f a = crash_state sn d f b.
Proof. intros E. unfold crash_state. rewrite (crash_events sn f a), (crash_events sn f b), E. reflexivity. Qed.

Lemma events_split f log : forall a b, events f log = a ++ b -> exists l r, log = l ++ r /\ events f l = a /\ events f r = b.
Proof.
  induction log as [|e log IH]; intros a b E.
  - destruct a, b; try discriminate E. exists [], []. auto.
  - unfold events in E. cbn [filter] in E. fold (events f log) in E. destruct (path_dec f (event_path e)) as [EF|NF] eqn:D.
    + destruct a as [|x a].
      * exists [], (e :: log). split; [reflexivity|]. split; [reflexivity|]. unfold events. cbn [filter]. rewrite D. exact E.
      * injection E as <- E. destruct (IH _ _ E) as (l & r & -> & <- & <-). exists (e :: l), r. split; [reflexivity|]. split; [|reflexivity]. unfold events. cbn [filter]. rewrite D. reflexivity.
    + destruct (IH _ _ E) as (l & r & -> & <- & <-). exists (e :: l), r. split; [reflexivity|]. split; [|reflexivity]. unfold events. cbn [filter]. rewrite D. reflexivity.
Qed.

(** The system crashes at some moment of a run with whatever timing.  Of each file
    this may leave only what a crash may leave in a run in which writes happen only
    once waited for, possibly during the last write in flight. *)
Theorem C76_crash : forall A (c : client A) w timing st a sn d log rest d',
  bg_client c (bg_none w timing) = Some (st, a) -> wd_log (bs_os st) = log ++ rest -> after_crash sn d log d' ->
  exists plan fs, run_client c (no_files (mkworld (wd_log w) plan (wd_max w))) = Some (fs, a)
    /\ forall i t, fs_writer fs i = Some t ->
       exists flight log' rest' d'', may_add t [] flight /\ wd_log (fs_os fs) ++ flight = log' ++ rest'
         /\ after_crash sn d log' d'' /\ d'' (tf_path (wr_file t)) = d' (tf_path (wr_file t)).
Proof.
  intros A c w timing st a sn d log rest d' H L AC. destruct (C76_any_timing A c w timing st a H) as (plan & fs & E & F & _). exists plan, fs. split; [exact E|].
  intros i t HT. specialize (F i t HT). set (f := tf_path (wr_file t)) in *.
  assert (X : exists flight, may_add t [] flight /\ events f (wd_log (bs_os st)) = events f (wd_log (fs_os fs) ++ flight)).
  { destruct F as [F|(ch & k & B & F)].
    - exists []. split; [left; reflexivity|]. rewrite app_nil_r. exact F.
    - exists [FAppend f (firstn k ch)]. split; [right; exists ch, k; auto|]. rewrite events_app, F. f_equal. symmetry. apply events_own. repeat constructor. }
  destruct X as (flight & M & X). rewrite L, events_app in X. symmetry in X. destruct (events_split _ _ _ _ X) as (log' & rest' & EL & E1 & _).
  exists flight, log', rest', (fun g => if path_dec g f then d' f else directory_after d log' g). split; [exact M|]. split; [exact EL|]. split.
  - intros g. change (crash_leaves (crash_state sn d g log') (if path_dec g f then d' f else directory_after d log' g)). destruct (path_dec g f) as [-> |_].
    + rewrite (crash_state_events sn d f log' log E1). exact (AC f).
    + apply crash_leaves_cur.
  - destruct (path_dec f f); [reflexivity|congruence].
Qed.
Print Assumptions C76_crash.

(** Once a segment was synced without error, a crash may leave the same with all
    timings. *)
Theorem C76_segment_crash : forall p w base info ops timing, is_id (si_segment_id info) ->
  exists st out plan, bg_client (segment_client p base info ops) (bg_none w timing) = Some (st, out)
    /\ (let* x := segment_program p (mkworld (wd_log w) plan (wd_max w)) base info ops in Ret (snd x)) = out
    /\ forall w1 reports, segment_program p (mkworld (wd_log w) plan (wd_max w)) base info ops = Ret (w1, Ok (reports ++ [Ok tt])) ->
       forall sn d more d', after_crash sn d (wd_log (bs_os st) ++ more) d' <-> after_crash sn d (wd_log w1 ++ more) d'.
Proof.
  intros p w base info ops timing ID. destruct (C76_segment p w base info ops timing ID) as (st & out & plan & E & O & S). exists st, out, plan. split; [exact E|]. split; [exact O|].
  intros w1 reports X sn d more d'. specialize (S w1 reports X d).
  assert (K : forall f, crash_state sn d f (wd_log (bs_os st) ++ more) = crash_state sn d f (wd_log w1 ++ more)).
  { intros f. apply crash_state_events. rewrite !events_app, (proj1 (S f)). reflexivity. }
  split; intros AC f; specialize (AC f).
  - change (crash_leaves (crash_state sn d f (wd_log w1 ++ more)) (d' f)). rewrite <- K. exact AC.
  - change (crash_leaves (crash_state sn d f (wd_log (bs_os st) ++ more)) (d' f)). rewrite K. exact AC.
Qed.
Print Assumptions C76_segment_crash.

(** A crash of the run of [C76_witness] just after the second file was written
    early: a part of the block is left. *)
Example C76_crash_witness :
  let w := mkworld [] [None; None; None; Some 0; None] 2 in
  let timing := [[]; []; []; [0]; [0]; [1]; [1]; [0]; [0]; [1]] in
  let log := [FCreate [97]; FCreate [98]; FAppend [97] [1; 2]; FAppend [97] []; FAppend [98] [4; 5]]%N in
  let d' := fun f : path => if path_dec f [98%N] then Some [4%N] else None in
  exists st a, bg_client two_files (bg_none w timing) = Some (st, a) /\ wd_log (bs_os st) = log ++ [FSync [97%N]; FAppend [98%N] [7; 8]%N]
    /\ after_crash true (fun _ => None) log d'.
Proof.
  intros w timing log d'. destruct (bg_client two_files (bg_none w timing)) as [[st a]|] eqn:E1; [|vm_compute in E1; discriminate E1].
  vm_compute in E1. injection E1 as <- <-. eexists. eexists. split; [reflexivity|]. split; [reflexivity|].
  intros f. unfold log, d'. cbn [fold_left crash_step]. destruct (path_dec f [97%N]) as [->|NA]; destruct (path_dec _ [98%N]) as [EB|NB]; try discriminate EB; cbn [cf_cur cf_synced cf_older cf_named option_map].
  - left. right. exact I.
  - right. cbn [cf_cur cf_synced app]. split; [cbn [length]; lia|]. intros [|i] L; [left; reflexivity|cbn [length] in L; lia].
  - right. exact I.
Qed.
