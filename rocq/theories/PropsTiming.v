(** C76: the moment at which background writes happen makes no difference. *)
From Verif Require Import Base BaseProofs Buffers Sink Io SpecIo IoProofs Names PropsNames Segment SpecSegment PropsSegmentEx Timing TimingProofs TimingSegment.
Open Scope nat_scope.

(** What [later] may add to what happened to a file: the write of a chunk, or of a
    part of it. *)
Definition may_add (t : writer) (before later : list fs_event) : Prop :=
  later = before
  \/ exists chunk k, tf_busy (wr_file t) = Some chunk /\ later = before ++ [FAppend (tf_path (wr_file t)) (firstn k chunk)].

(** Whatever program uses however many files, drops whichever of its calls,
    whatever fails, and whenever the background threads come to write: with some
    plan of failures the program gives the same answer, and every file sees the same effects in the same order, if
    writes happen only once waited for, as in Io.v.  A write still in flight when
    the program ends may have happened, or not. *)
Theorem C76_any_timing : forall A (c : client A) w timing st a, bg_client c (bg_none w timing) = Some (st, a) ->
  exists plan fs, run_client c (no_files (mkworld (wd_log w) plan (wd_max w))) = Some (fs, a)
    /\ (forall i t, fs_writer fs i = Some t -> may_add t (events (tf_path (wr_file t)) (wd_log (fs_os fs))) (events (tf_path (wr_file t)) (wd_log (bs_os st))))
    /\ (forall f, (forall i t, fs_writer fs i = Some t -> tf_path (wr_file t) <> f) -> events f (wd_log (bs_os st)) = events f (wd_log (fs_os fs))).
Proof.
  intros A c w timing st a H. pose proof (client_agree (fun _ => True) I (wd_max w) c _ _ _ _ (agree_none_yet (fun _ => True) w timing (proj2 (Forall_forall _ _) (fun _ _ => I)))) as G.
  rewrite H in G. destruct G as (used & L1 & ws1 & names1 & _ & E & AG). specialize (E []). rewrite app_nil_r in E. exists used, (mkfiles (mkworld L1 [] (wd_max w)) ws1 names1).
  split; [exact E|]. cbn [fs_os fs_writer wd_log]. split.
  - intros i t HT. destruct (agree_file _ _ _ _ _ _ _ _ AG HT) as [_ [X|(ch & fate & _ & B & X)]]; [left; exact X|right]. exists ch, (match fate with None => length ch | Some k => k end).
    split; [exact B|]. rewrite X. destruct fate; cbn [cut_at]; [reflexivity|rewrite firstn_all; reflexivity].
  - intros f NF. exact (agree_other _ _ _ _ _ _ f AG NF).
Qed.
Print Assumptions C76_any_timing.

(** The other way round, writes that happen once waited for are one of the
    timings. *)
Theorem C76_waiting_is_a_timing : forall A (c : client A) w,
  match run_client c (no_files w) with
  | Some (fs, a) => exists st, bg_client c (bg_none w []) = Some (st, a) /\ bs_os st = fs_os fs
  | None => bg_client c (bg_none w []) = None
  end.
Proof.
  intros A c w. pose proof (lazy_client c _ _ _ _ (lazy_none w)) as G. unfold no_files. destruct (run_client c _) as [[fs a]|]; [|exact G].
  destruct G as (st & E & Z). exists st. split; [exact E|exact (lz_os _ _ _ _ Z)].
Qed.
Print Assumptions C76_waiting_is_a_timing.

(** If nothing fails the answer is the same for all timings. *)
Theorem C76_no_failures : forall A (c : client A) w timing, Forall (fun x => x = None) (wd_plan w) ->
  match run_client c (no_files w) with
  | Some (fs, a) => exists st, bg_client c (bg_none w timing) = Some (st, a)
      /\ (forall i t, fs_writer fs i = Some t -> may_add t (events (tf_path (wr_file t)) (wd_log (fs_os fs))) (events (tf_path (wr_file t)) (wd_log (bs_os st))))
  | None => bg_client c (bg_none w timing) = None
  end.
Proof.
  intros A c w timing F. set (Q := fun x : option nat => x = None).
  pose proof (client_agree Q eq_refl (wd_max w) c _ _ _ _ (agree_none_yet Q w timing F)) as G1.
  pose proof (client_agree Q eq_refl (wd_max w) c _ _ _ _ (agree_none_yet Q w [] F)) as G2.
  pose proof (lazy_client c _ _ _ _ (lazy_none w)) as G3. unfold no_files.
  assert (SW : forall u v, Forall Q u -> Forall Q v -> u ++ v = v ++ u).
  { intros u v U V. assert (R : forall l, Forall Q l -> l = repeat None (length l)).
    { intros l X. induction X as [|x l E X IH]; [reflexivity|]. unfold Q in E. cbn [length repeat]. rewrite E at 1. f_equal. exact IH. }
    rewrite (R u U), (R v V), <- !repeat_app. f_equal. lia. }
  destruct (run_client c (mkfiles w (fun _ => None) [])) as [[fs a]|].
  - destruct G3 as (st2 & E2 & Z). rewrite E2 in G2. destruct G2 as (used2 & L2 & ws2 & names2 & U2 & R2 & A2).
    destruct (bg_client c (bg_none w timing)) as [[st1 a1]|].
    + destruct G1 as (used1 & L1 & ws1 & names1 & U1 & R1 & A1). specialize (R1 used2). specialize (R2 used1). rewrite (SW _ _ U2 U1), R1 in R2. injection R2 as EL _ EW EN Ea. subst a1 L1 ws1 names1.
      exists st1. split; [reflexivity|]. intros i t HT. destruct (lazy_agree _ _ _ _ _ _ _ _ _ Z A2) as [K1 K2]. rewrite (K2 i t HT). rewrite <- K1 in HT.
      destruct (agree_file _ _ _ _ _ _ _ _ A1 HT) as [_ [X|(ch & fate & QF & B & X)]]; [left; exact X|right]. exists ch, (length ch). split; [exact B|]. rewrite X, QF, firstn_all. reflexivity.
    + destruct G1 as (used1 & U1 & R1). specialize (R1 used2). specialize (R2 used1). rewrite (SW _ _ U2 U1), R1 in R2. discriminate R2.
  - rewrite G3 in G2. destruct G2 as (used2 & U2 & R2). destruct (bg_client c (bg_none w timing)) as [[st1 a1]|]; [exfalso|reflexivity].
    destruct G1 as (used1 & L1 & ws1 & names1 & U1 & R1 & A1). specialize (R1 used2). specialize (R2 used1). rewrite (SW _ _ U2 U1), R1 in R2. discriminate R2.
Qed.
Print Assumptions C76_no_failures.

(** A segment, with whatever timing, reports what Segment.v says it does with some
    plan of failures.  Once it was synced without error, its files are the same
    too. *)
Theorem C76_segment : forall p w base info ops timing, is_id (si_segment_id info) ->
  exists st out plan, bg_client (segment_client p base info ops) (bg_none w timing) = Some (st, out)
    /\ (let* x := segment_program p (mkworld (wd_log w) plan (wd_max w)) base info ops in Ret (snd x)) = out
    /\ forall w1 reports, segment_program p (mkworld (wd_log w) plan (wd_max w)) base info ops = Ret (w1, Ok (reports ++ [Ok tt])) ->
       forall d f, events f (wd_log (bs_os st)) = events f (wd_log w1) /\ directory_after d (wd_log (bs_os st)) f = directory_after d (wd_log w1) f.
Proof.
  intros p w base info ops timing ID.
  assert (NE : index_path base (si_segment_id info) <> data_path base (si_segment_id info)) by (destruct (C49_distinct base _ _ ID ID) as (_ & _ & X); congruence).
  assert (RUN : forall w0, exists fs out, run_client (segment_client p base info ops) (no_files w0) = Some (fs, out)
    /\ (let* x := segment_program p w0 base info ops in Ret (snd x)) = out
    /\ forall w1 reports, segment_program p w0 base info ops = Ret (w1, Ok (reports ++ [Ok tt])) -> fs_os fs = w1
         /\ (forall i, 1 < i -> fs_writer fs i = None) /\ forall i t, fs_writer fs i = Some t -> tf_busy (wr_file t) = None \/ tf_err (wr_file t) = true).
  { intros w0. pose proof (segment_client_goes p w0 base info ops NE) as G. destruct (segment_program p w0 base info ops) as [[w1 r]|k|]; cbn [goes_on] in G.
    - destruct G as (fs & c1 & E & -> & EO & B). cbn [fst snd] in *. exists fs, (Ret r). split; [exact E|]. split; [reflexivity|]. intros w2 reports X. injection X as <- ->. split; [exact EO|]. exact (B _ eq_refl).
    - destruct G as (fs & E). exists fs, (Panic k). split; [exact E|]. split; [reflexivity|]. intros w2 reports X. discriminate X.
    - destruct G as (fs & E). exists fs, NoFuel. split; [exact E|]. split; [reflexivity|]. intros w2 reports X. discriminate X. }
  pose proof (client_agree (fun _ => True) I (wd_max w) (segment_client p base info ops) _ _ _ _ (agree_none_yet (fun _ => True) w timing (proj2 (Forall_forall _ _) (fun _ _ => I)))) as G.
  destruct (bg_client (segment_client p base info ops) (bg_none w timing)) as [[st out]|].
  - destruct G as (used & L1 & ws1 & names1 & _ & E & AG). specialize (E []). rewrite app_nil_r in E. exists st, out, used. split; [reflexivity|].
    destruct (RUN (mkworld (wd_log w) used (wd_max w))) as (fs & out' & E' & O & B). unfold no_files in E'. rewrite E in E'. injection E' as <- <-. split; [exact O|].
    intros w1 reports X d f. destruct (B _ _ X) as (<- & SL & SET). cbn [fs_os wd_log fs_writer] in *.
    assert (EV : events f (wd_log (bs_os st)) = events f L1).
    { assert (W : forall i t, ws1 i = Some t -> events (tf_path (wr_file t)) (wd_log (bs_os st)) = events (tf_path (wr_file t)) L1).
      { intros i t HT. destruct (agree_file _ _ _ _ _ _ _ _ AG HT) as [CA [Y|(ch & fate & _ & BU & _)]]; [exact Y|]. destruct (SET i t HT) as [Z|Z]; [congruence|]. specialize (CA Z). congruence. }
      assert (D : forall i, (exists t, ws1 i = Some t /\ tf_path (wr_file t) = f) \/ forall t, ws1 i = Some t -> tf_path (wr_file t) <> f).
      { intros i. destruct (ws1 i) as [t|]; [|right; intros t H; discriminate H]. destruct (path_dec (tf_path (wr_file t)) f) as [P|P]; [left; exists t; auto|right; intros t' H; injection H as <-; exact P]. }
      destruct (D 0) as [(t & HT & <-)|D0]; [exact (W _ _ HT)|]. destruct (D 1) as [(t & HT & <-)|D1]; [exact (W _ _ HT)|].
      apply (agree_other _ _ _ _ _ _ f AG). intros [|[|i]] t HT; [exact (D0 t HT)|exact (D1 t HT)|]. rewrite SL in HT; [discriminate HT|lia]. }
    split; [exact EV|]. rewrite directory_events, EV, <- directory_events. reflexivity.
  - exfalso. destruct G as (used & _ & E). specialize (E []). rewrite app_nil_r in E. destruct (RUN (mkworld (wd_log w) used (wd_max w))) as (fs & out' & E' & _). unfold no_files in E'. rewrite E in E'. discriminate E'.
Qed.
Print Assumptions C76_segment.

(** Two files used in turn; the last write to the second is dropped after its first
    chunk, which is in flight at the end. *)
Definition two_files : client (list (option (result unit))) :=
  Use 0 (FOpen [97]%N) (fun a => Use 1 (FOpen [98]%N) (fun b =>
  Use 0 (FDo (WBlock [1; 2; 3]%N)) (fun c => Use 1 (FDo (WBlock [4; 5]%N)) (fun d =>
  Use 0 (FDo WSync) (fun e => Use 0 (FDo (WBlock [6]%N)) (fun f =>
  UseWithin 1 1 [7; 8; 9]%N (fun g => Use 0 (FDo WFlush) (fun h => Finish (map Some [a; b; c; d; e; f] ++ [g; Some h]))))))))).

(** With this timing the first file is written at once, the second before the
    first is synced, and before the end; the write of the fourth thing fails.  The
    kept error of the sync is reported by the next write.  The effects are the same
    for each file, but for the write in flight. *)
Example C76_witness :
  let w := mkworld [] [None; None; None; Some 0; None] 2 in
  let answers := map Some [Ok tt; Ok tt; Ok tt; Ok tt; Ok tt; Err] ++ [None; Some (Ok tt)] in
  exists st fs,
    bg_client two_files (bg_none w [[]; []; []; [0]; [0]; [1]; [1]; [0]; [0]; [1]]) = Some (st, answers)
    /\ run_client two_files (no_files w) = Some (fs, answers)
    /\ wd_log (bs_os st) = [FCreate [97]; FCreate [98]; FAppend [97] [1; 2]; FAppend [97] []; FAppend [98] [4; 5]; FSync [97]; FAppend [98] [7; 8]]%N
    /\ wd_log (fs_os fs) = [FCreate [97]; FCreate [98]; FAppend [97] [1; 2]; FAppend [97] []; FSync [97]; FAppend [98] [4; 5]]%N.
Proof.
  intros w answers. destruct (bg_client two_files (bg_none w [[]; []; []; [0]; [0]; [1]; [1]; [0]; [0]; [1]])) as [[st a]|] eqn:E1; [|vm_compute in E1; discriminate E1].
  destruct (run_client two_files (no_files w)) as [[fs b]|] eqn:E2; [|vm_compute in E2; discriminate E2].
  vm_compute in E1, E2. injection E1 as <- <-. injection E2 as <- <-. eexists. eexists. split; [reflexivity|]. split; [reflexivity|]. split; reflexivity.
Qed.

(** A segment whose headers are written as soon as possible, unlike when waited
    for. *)
Example C76_segment_witness :
  let w := mkworld [] [] 20 in
  let timing := [[]; []; []; [0]; [1]; [1]; [0]; [1]; [0; 1]; [1]; [0]; [0]; [1]] in
  is_id (si_segment_id ex_info)
  /\ exists st w1, bg_client (segment_client Debug ex_base ex_info ex_ops) (bg_none w timing) = Some (st, Ret (Ok (repeat (Ok tt) 10 ++ [Ok tt])))
     /\ segment_program Debug w ex_base ex_info ex_ops = Ret (w1, Ok (repeat (Ok tt) 10 ++ [Ok tt]))
     /\ nth 2 (wd_log (bs_os st)) (FSync []) = FAppend (index_path ex_base (si_segment_id ex_info)) index_file_signature
     /\ nth 2 (wd_log w1) (FSync []) = FAppend (data_path ex_base (si_segment_id ex_info)) data_file_signature.
Proof.
  intros w timing. split; [split; [reflexivity|vm_compute; repeat constructor]|].
  destruct (bg_client (segment_client Debug ex_base ex_info ex_ops) (bg_none w timing)) as [[st a]|] eqn:E1; [|vm_compute in E1; discriminate E1].
  destruct (segment_program Debug w ex_base ex_info ex_ops) as [[w1 b]|k|] eqn:E2; [|vm_compute in E2; discriminate E2|vm_compute in E2; discriminate E2].
  vm_compute in E1, E2. injection E1 as <- <-. injection E2 as <- <-. eexists. eexists. split; [reflexivity|]. split; [reflexivity|]. split; vm_compute; reflexivity.
Qed.
