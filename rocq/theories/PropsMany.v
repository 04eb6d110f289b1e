(** C98: a crash while any number of segments are being written. *)
From Verif Require Import Base Buffers Sink PrimEnc BinEnc Io SpecIo IoProofs PropsIo Metadata Proto SpecProto ProtoProofs ReadBlock
  BlockProofs Names PropsNames Segment SpecSegment SegmentProofs SegmentRunProofs PropsSegment PropsSegmentEx PropsSegmentRef PropsCrash
  PropsReadBack TimingProofs PropsTimingCrash PropsCursor.
Open Scope nat_scope.

(** ** What the segments have done so far *)

(** [m] has the elements of all of [ls], each in its order. *)
Inductive mixed {A} : list (list A) -> list A -> Prop :=
| mx_nil : mixed [] []
| mx_cons l ls m m' : mixed ls m -> interleaved l m m' -> mixed (l :: ls) m'.

(** A segment with everything that is going to be asked of it, and the behaviour
    of the system towards it. *)
Record job : Type := mkjob { jb_profile : profile; jb_world : world; jb_info : segment_info; jb_ops : list seg_op }.

(** The effects of a segment whose creation may fail. *)
Definition job_effects (base : path) (j : job) (effects : list fs_event) : Prop :=
  segment_effects (jb_profile j) (jb_world j) base (jb_info j) (jb_ops j) effects
  \/ (wd_log (jb_world j) = [] /\ 0 < wd_max (jb_world j)
      /\ exists w1, segment_new (jb_world j) base (jb_info j) = (w1, Err) /\ effects = wd_log w1).

(** It is anywhere in its work. *)
Definition so_far (base : path) (j : job) (effects : list fs_event) : Prop := exists rest, job_effects base j (effects ++ rest).

Definition job_data (base : path) (j : job) : path := data_path base (si_segment_id (jb_info j)).
Definition job_index (base : path) (j : job) : path := index_path base (si_segment_id (jb_info j)).

(** ** One file in a mixed log *)

Lemma events_none f log : Forall (fun e => event_path e <> f) log -> events f log = [].
Proof.
  induction 1 as [|e log E F IH]; [reflexivity|]. unfold events in *. cbn [filter]. destruct (path_dec f (event_path e)); [congruence|exact IH].
Qed.

Lemma interleaved_events f a b l : interleaved a b l -> events f b = [] -> events f l = events f a.
Proof.
  unfold events. induction 1 as [|x a b l I IH|x a b l I IH]; cbn [filter]; intros E; [reflexivity| |].
  - rewrite (IH E). reflexivity.
  - destruct (path_dec f (event_path x)); [discriminate|exact (IH E)].
Qed.

Lemma mixed_none f ls m : mixed ls m -> (forall l, In l ls -> events f l = []) -> events f m = [].
Proof.
  induction 1 as [|l ls m m' M IH I]; intros E; [reflexivity|].
  rewrite (interleaved_events f _ _ _ (interleaved_sym _ _ _ I)) by (apply E; left; reflexivity). apply IH. intros x X. apply E. right. exact X.
Qed.

Lemma mixed_events f ls m : mixed ls m -> forall i l, nth_error ls i = Some l ->
  (forall j l', j <> i -> nth_error ls j = Some l' -> events f l' = []) -> events f m = events f l.
Proof.
  induction 1 as [|l0 ls m m' M IH I]; intros i l NI E; [destruct i; discriminate|]. destruct i as [|i]; cbn [nth_error] in NI.
  - injection NI as ->. apply (interleaved_events f _ _ _ I). apply (mixed_none f _ _ M). intros x X.
    destruct (In_nth_error _ _ X) as [k K]. apply (E (S k) x); [discriminate|exact K].
  - rewrite (interleaved_events f _ _ _ (interleaved_sym _ _ _ I)) by (apply (E 0 l0); [discriminate|reflexivity]).
    apply (IH i l NI). intros j l' NE J. apply (E (S j) l'); [congruence|exact J].
Qed.

Lemma so_far_own base j l f : is_id (si_segment_id (jb_info j)) -> so_far base j l -> f <> job_data base j -> f <> job_index base j -> events f l = [].
Proof.
  intros ID (rest & [E|(L & M & w1 & N & E)]) N1 N2.
  - pose proof (segment_effects_own _ _ _ _ _ _ f ID E N1 N2) as F. apply Forall_app in F. apply events_none, F.
  - destruct (segment_new_touches (fun _ => None) _ _ _ _ _ M ID N) as ((m & LM & F) & _). rewrite L in LM. cbn [app] in LM.
    rewrite LM in E. rewrite <- E in F. apply Forall_app in F. apply events_none. eapply Forall_impl; [|exact (proj1 F)]. cbn.
    unfold job_data, job_index in *. intros e [H|H] Q; congruence.
Qed.

Lemma crash_untouched sn d f log left : events f log = [] -> crash_leaves (crash_state sn d f log) left -> left = d f.
Proof.
  intros E. rewrite (crash_state_events sn d f log []) by exact E. unfold crash_state. cbn [fold_left]. unfold crash_leaves, crash_init. cbn [cf_older cf_cur cf_synced].
  intros [[]|H]. destruct (d f) as [c|], left as [l|]; try contradiction; [|reflexivity]. f_equal. apply survives_all, H.
Qed.

(** ** The theorem *)

Section Many.
Context (base : path) (jobs : list job) (logs : list (list fs_event)) (done : list fs_event).
Context (ids : Forall (fun j => is_id (si_segment_id (jb_info j))) jobs).
Context (distinct : NoDup (map (fun j => si_segment_id (jb_info j)) jobs)).
Context (within : job -> list fs_event -> Prop).
Context (own : forall j l f, is_id (si_segment_id (jb_info j)) -> within j l -> f <> job_data base j -> f <> job_index base j -> events f l = []).
Context (parts : Forall2 within jobs logs).
Context (mix : mixed logs done).

Lemma nth_id i j : nth_error jobs i = Some j -> is_id (si_segment_id (jb_info j)).
Proof. intros H. apply nth_error_In in H. rewrite Forall_forall in ids. apply ids, H. Qed.

Lemma nth_so_far i : forall l, nth_error logs i = Some l -> exists j, nth_error jobs i = Some j /\ within j l.
Proof.
  clear - parts. revert i. induction parts as [|j l js ls H F IH]; intros [|i] x X; try discriminate X.
  - injection X as <-. exists j. split; [reflexivity|exact H].
  - exact (IH F i x X).
Qed.

Lemma other_job i k j j' : i <> k -> nth_error jobs i = Some j -> nth_error jobs k = Some j' ->
  job_data base j <> job_data base j' /\ job_data base j <> job_index base j' /\ job_index base j <> job_data base j' /\ job_index base j <> job_index base j'.
Proof.
  intros NE J K. pose proof (nth_id _ _ J) as I1. pose proof (nth_id _ _ K) as I2.
  assert (D : si_segment_id (jb_info j) <> si_segment_id (jb_info j')).
  { intros Q. apply NE. assert (LI : i < length jobs) by (apply nth_error_Some; congruence).
    rewrite NoDup_nth_error in distinct. apply distinct; [rewrite map_length; exact LI|]. rewrite !nth_error_map, J, K. cbn [option_map]. congruence. }
  destruct (C49_distinct base _ _ I1 I2) as (A & B & X). destruct (C49_distinct base _ _ I2 I1) as (_ & _ & Y).
  unfold job_data, job_index. split; [intros Q; apply D, A, Q|]. split; [exact X|]. split; [intros Q; apply Y; symmetry; exact Q|intros Q; apply D, B, Q].
Qed.

Lemma own_events i j l f : nth_error jobs i = Some j -> nth_error logs i = Some l -> f = job_data base j \/ f = job_index base j ->
  events f done = events f l.
Proof.
  intros J L F. apply (mixed_events f _ _ mix i l L). intros k l' NE K. destruct (nth_so_far _ _ K) as (j' & J' & SF).
  assert (NE' : i <> k) by congruence. destruct (other_job _ _ _ _ NE' J J') as (A & B & X & Y).
  apply (own j' l' f (nth_id _ _ J') SF); destruct F as [-> | ->]; assumption.
Qed.

Lemma no_events f : (forall j, In j jobs -> f <> job_data base j /\ f <> job_index base j) -> events f done = [].
Proof.
  intros F. apply (mixed_none f _ _ mix). intros l L. destruct (In_nth_error _ _ L) as [i I]. destruct (nth_so_far _ _ I) as (j & J & SF).
  destruct (F j (nth_error_In _ _ J)) as [A B]. exact (own j l f (nth_id _ _ J) SF A B).
Qed.

Lemma crash_many sn d d' :
  after_crash sn d done d' <->
    (forall i j l, nth_error jobs i = Some j -> nth_error logs i = Some l ->
       exists d1, after_crash sn d l d1 /\ d' (job_data base j) = d1 (job_data base j) /\ d' (job_index base j) = d1 (job_index base j))
    /\ (forall f, (forall j, In j jobs -> f <> job_data base j /\ f <> job_index base j) -> d' f = d f).
Proof.
  split.
  - intros AC. split.
    + intros i j l J L. set (mine := fun f => (if path_dec f (job_data base j) then true else false) || (if path_dec f (job_index base j) then true else false)).
      exists (fun f => if mine f then d' f else directory_after d l f). unfold mine. split; [|split].
      * intros f. change (crash_leaves (crash_state sn d f l) (if mine f then d' f else directory_after d l f)). unfold mine.
        destruct (path_dec f (job_data base j)) as [E1|N1]; [|destruct (path_dec f (job_index base j)) as [E2|N2]]; cbn [orb].
        -- rewrite <- (crash_state_events sn d f done l); [exact (AC f)|]. apply (own_events i j l f J L). left. exact E1.
        -- rewrite <- (crash_state_events sn d f done l); [exact (AC f)|]. apply (own_events i j l f J L). right. exact E2.
        -- apply crash_leaves_cur.
      * destruct (path_dec (job_data base j) (job_data base j)); [reflexivity|congruence].
      * destruct (path_dec (job_index base j) (job_index base j)); [rewrite Bool.orb_true_r; reflexivity|congruence].
    + intros f F. apply (crash_untouched sn d f done); [apply no_events, F|exact (AC f)].
  - intros [P Q] f. change (crash_leaves (crash_state sn d f done) (d' f)).
    destruct (in_dec path_dec f (map (job_data base) jobs ++ map (job_index base) jobs)) as [I|NI].
    + assert (H : exists j, In j jobs /\ (f = job_data base j \/ f = job_index base j)).
      { apply in_app_or in I. destruct I as [I|I]; apply in_map_iff in I; destruct I as (j & <- & I); exists j; auto. }
      destruct H as (j & Ij & F). destruct (In_nth_error _ _ Ij) as [i J].
      destruct (nth_error logs i) as [l|] eqn:L.
      * destruct (P i j l J L) as (d1 & A & D1 & D2). rewrite (crash_state_events sn d f done l) by exact (own_events i j l f J L F).
        replace (d' f) with (d1 f) by (destruct F as [-> | ->]; congruence). exact (A f).
      * exfalso. apply nth_error_None in L. assert (K : i < length jobs) by (apply nth_error_Some; congruence). apply Forall2_len in parts. lia.
    + rewrite (crash_state_events sn d f done []) by (apply no_events; intros j J; split; intros E; apply NI, in_or_app;
        [left|right]; rewrite E; apply in_map, J).
      rewrite (Q f); [exact (crash_leaves_cur sn d f [])|]. intros j J. split; intros E; apply NI, in_or_app; [left|right]; rewrite E; apply in_map, J.
Qed.

End Many.

(** Any number of segments with identifiers of their own are being written, each
    at any point, their effects mixed in any way. What a crash may leave is, for
    the files of each segment, what a crash may leave if that segment is the only
    one, in any combination; all other files are left as they were. *)
Theorem C98_each_as_if_alone : forall sn d base jobs logs done d',
  Forall (fun j => is_id (si_segment_id (jb_info j))) jobs ->
  NoDup (map (fun j => si_segment_id (jb_info j)) jobs) ->
  Forall2 (so_far base) jobs logs -> mixed logs done ->
  after_crash sn d done d' <->
    (forall i j l, nth_error jobs i = Some j -> nth_error logs i = Some l ->
       exists d1, after_crash sn d l d1
         /\ d' (data_path base (si_segment_id (jb_info j))) = d1 (data_path base (si_segment_id (jb_info j)))
         /\ d' (index_path base (si_segment_id (jb_info j))) = d1 (index_path base (si_segment_id (jb_info j))))
    /\ (forall f, (forall j, In j jobs -> f <> data_path base (si_segment_id (jb_info j)) /\ f <> index_path base (si_segment_id (jb_info j))) ->
          d' f = d f).
Proof. intros sn d base jobs logs done d' H1 H2 H3 H4. exact (crash_many base jobs logs done H1 H2 (so_far base) (so_far_own base) H3 H4 sn d d'). Qed.
Print Assumptions C98_each_as_if_alone.

(** Without a crash every segment has what it wrote. *)
Theorem C98_running : forall d base jobs logs done,
  Forall (fun j => is_id (si_segment_id (jb_info j))) jobs ->
  NoDup (map (fun j => si_segment_id (jb_info j)) jobs) ->
  Forall2 (so_far base) jobs logs -> mixed logs done ->
  (forall i j l, nth_error jobs i = Some j -> nth_error logs i = Some l ->
     directory_after d done (data_path base (si_segment_id (jb_info j))) = directory_after d l (data_path base (si_segment_id (jb_info j)))
     /\ directory_after d done (index_path base (si_segment_id (jb_info j))) = directory_after d l (index_path base (si_segment_id (jb_info j))))
  /\ (forall f, (forall j, In j jobs -> f <> data_path base (si_segment_id (jb_info j)) /\ f <> index_path base (si_segment_id (jb_info j))) ->
        directory_after d done f = d f).
Proof.
  intros d base jobs logs done H1 H2 H3 H4. split.
  - intros i j l J L.
    assert (E : forall f, f = job_data base j \/ f = job_index base j -> directory_after d done f = directory_after d l f).
    { intros f F. rewrite <- !(crash_cur true). rewrite (crash_state_events true d f done l); [reflexivity|]. exact (own_events base jobs logs done H1 H2 (so_far base) (so_far_own base) H3 H4 i j l f J L F). }
    split; apply E; [left|right]; reflexivity.
  - intros f F. rewrite <- (crash_cur true). rewrite (crash_state_events true d f done []); [reflexivity|]. exact (no_events base jobs logs done H1 (so_far base) (so_far_own base) H3 H4 f F).
Qed.
Print Assumptions C98_running.

(** One that was closed and synced without errors is whole, whatever the others
    were doing; if a sync also makes the name of the file durable (see C54). *)
Theorem C98_synced : forall d base jobs logs done d' i j w1 sg ops it w2 sg2 rs w3,
  Forall (fun j => is_id (si_segment_id (jb_info j))) jobs ->
  NoDup (map (fun j => si_segment_id (jb_info j)) jobs) ->
  Forall2 (so_far base) jobs logs -> mixed logs done -> after_crash true d done d' ->
  nth_error jobs i = Some j -> nth_error logs i = Some (wd_log w3) ->
  0 < wd_max (jb_world j) -> segment_new (jb_world j) base (jb_info j) = (w1, Ok sg) ->
  orders_ok (ops ++ [SClose it]) -> seg_run (jb_profile j) w1 sg (ops ++ [SClose it]) = Ret (w2, sg2, rs) -> all_ok rs ->
  segment_sync w2 sg2 = (w3, Ok tt) ->
  (exists blocks, segment_blocks (jb_profile j) ops = Ret blocks
     /\ d' (data_path base (si_segment_id (jb_info j)))
        = Some ([77; 69; 69; 82; 75; 65; 84; 95; 68; 65; 84; 65; 49]%N ++ concat (map snd blocks)))
  /\ (exists file, d' (index_path base (si_segment_id (jb_info j))) = Some file
        /\ ((N.of_nat (length file) < 18446744073709551616)%N ->
            exists s lays, read_index_file file = Some (mkmeta (Some s) lays) /\ sm_segment_id s = si_segment_id (jb_info j)
              /\ entries column_entry (closed_columns ops) (sm_columns_meta s))).
Proof.
  intros d base jobs logs done d' i j w1 sg ops it w2 sg2 rs w3 H1 H2 H3 H4 AC J L M N O R A SY.
  destruct (proj1 (crash_many base jobs logs done H1 H2 (so_far base) (so_far_own base) H3 H4 true d d') AC) as [P _]. destruct (P i j _ J L) as (d1 & A1 & D1 & D2).
  unfold job_data, job_index in D1, D2. rewrite D1, D2. rewrite <- (app_nil_r (wd_log w3)) in A1.
  exact (proj2 (proj2 (C54_closed_and_synced_partial d _ _ base _ w1 sg ops it w2 sg2 rs w3 [] d1 M (nth_id jobs H1 i j J) N O R A SY (Forall_nil _) A1))).
Qed.
Print Assumptions C98_synced.

(** ** Three segments *)

Definition ex_info3 : segment_info :=
  mksinfo [1; 2; 3; 4; 5; 6; 7; 8; 9; 10; 11; 12; 13; 14; 15; 253]%N [100]%N [116]%N 3 1000.
(** The second file cannot be created. *)
Definition ex_refuses : world := mkworld [] [None; Some 0] 50.

Definition many_jobs : list job :=
  [mkjob Debug ex_world ex_info rs_ops; mkjob Debug ex_world ex_info2 rs_ops; mkjob Debug ex_refuses ex_info3 rs_ops].
Definition many_logs : list (list fs_event) :=
  [synced_log ex_info rs_ops; firstn 5 (log_of ex_info2 rs_ops); wd_log (fst (segment_new ex_refuses ex_base ex_info3))].
Definition many_done : list fs_event :=
  zip (synced_log ex_info rs_ops) (zip (firstn 5 (log_of ex_info2 rs_ops)) (zip (wd_log (fst (segment_new ex_refuses ex_base ex_info3))) [])).
Lemma crash_takes sn d f log : crash_leaves (crash_state sn d f log) None ->
  after_crash sn d log (fun g => if path_dec g f then None else directory_after d log g).
Proof. intros H g. destruct (path_dec g f) as [-> |]; [exact H|exact (crash_leaves_cur sn d g log)]. Qed.

(** The crash takes one file and leaves the others as they are. *)
Definition many_left : directory := fun f =>
  if path_dec f (data_path ex_base (si_segment_id ex_info2)) then None else directory_after (fun _ => None) many_done f.

(** The first segment is synced, the second has begun its data file, the third was
    not created. A crash takes the data file of the second. *)
Theorem C98_witness :
  Forall (fun j => is_id (si_segment_id (jb_info j))) many_jobs
  /\ NoDup (map (fun j => si_segment_id (jb_info j)) many_jobs)
  /\ Forall2 (so_far ex_base) many_jobs many_logs /\ mixed many_logs many_done
  /\ map (@length fs_event) many_logs = [13; 5; 1] /\ after_crash true (fun _ => None) many_done many_left
  /\ match run_from Debug ex_world ex_base ex_info rs_ops with
     | Some (w, sg, rs) => all_ok rs /\ snd (segment_sync w sg) = Ok tt /\ wd_log (fst (segment_sync w sg)) = synced_log ex_info rs_ops
     | None => False
     end
  /\ option_map (@length N) (many_left (data_path ex_base (si_segment_id ex_info))) = Some 198
  /\ many_left (data_path ex_base (si_segment_id ex_info2)) = None
  /\ option_map (@length N) (many_left (index_path ex_base (si_segment_id ex_info2))) = Some 0
  /\ many_left (index_path ex_base (si_segment_id ex_info3)) = Some [].
Proof.
  split; [repeat constructor|]. split; [repeat constructor; cbn [map In many_jobs]; intuition discriminate|].
  split; [|split; [|split; [vm_compute; reflexivity|split]]].
  - constructor; [|constructor; [|constructor; [|constructor]]].
    + exists []. rewrite app_nil_r. left. unfold segment_effects, synced_log, run_from. cbn [jb_profile jb_world jb_info jb_ops].
      destruct (segment_new ex_world ex_base ex_info) as [w1 [sg|]] eqn:N; [|vm_compute in N; discriminate].
      destruct (seg_run Debug w1 sg rs_ops) as [[[w2 sg2] rs]|k|] eqn:R.
      * split; [reflexivity|]. split; [cbn; lia|]. exists w1, sg, w2, sg2, rs. split; [reflexivity|]. split; [exact R|]. right.
        destruct (segment_sync w2 sg2) as [w3 r]. exists w3, r. split; reflexivity.
      * exfalso. assert (X : run_from Debug ex_world ex_base ex_info rs_ops = None) by (unfold run_from; rewrite N, R; reflexivity). vm_compute in X. discriminate.
      * exfalso. assert (X : run_from Debug ex_world ex_base ex_info rs_ops = None) by (unfold run_from; rewrite N, R; reflexivity). vm_compute in X. discriminate.
    + exists (skipn 5 (log_of ex_info2 rs_ops)). rewrite firstn_skipn. left. unfold segment_effects, log_of, run_from. cbn [jb_profile jb_world jb_info jb_ops].
      destruct (segment_new ex_world ex_base ex_info2) as [w1 [sg|]] eqn:N; [|vm_compute in N; discriminate].
      destruct (seg_run Debug w1 sg rs_ops) as [[[w2 sg2] rs]|k|] eqn:R.
      * split; [reflexivity|]. split; [cbn; lia|]. exists w1, sg, w2, sg2, rs. auto.
      * exfalso. assert (X : run_from Debug ex_world ex_base ex_info2 rs_ops = None) by (unfold run_from; rewrite N, R; reflexivity). vm_compute in X. discriminate.
      * exfalso. assert (X : run_from Debug ex_world ex_base ex_info2 rs_ops = None) by (unfold run_from; rewrite N, R; reflexivity). vm_compute in X. discriminate.
    + exists []. rewrite app_nil_r. right. split; [reflexivity|]. split; [cbn; lia|]. exists (fst (segment_new ex_refuses ex_base ex_info3)). split; vm_compute; reflexivity.
  - econstructor; [econstructor; [econstructor; [constructor|apply zip_interleaved]|apply zip_interleaved]|apply zip_interleaved].
  - apply (crash_takes true (fun _ => None) (data_path ex_base (si_segment_id ex_info2)) many_done). vm_compute. left. right. exact I.
  - split; [vm_compute; repeat constructor|]. split; [vm_compute; reflexivity|]. split; [vm_compute; reflexivity|]. split; vm_compute; reflexivity.
Qed.
Print Assumptions C98_witness.
