(** Property C109 with background writes at any moment: a block read from a segment
    that is still being written (segment_writer.rs, io/default_block_writer.rs,
    io/unix_disk_block_reader.rs). *)
From Verif Require Import Base BaseProofs Buffers Sink PrimEnc BinEnc Io SpecIo IoProofs IoReadProofs PropsIo Metadata Proto SpecProto ProtoProofs ReadBlock BlockProofs Names PropsNames Segment SpecSegment
  SegmentProofs SegmentRunProofs PropsSegment PropsSegmentEx PropsSegmentRef PropsReadBack PropsTorn PropsIndexErr PropsCrash Cancel PropsCancel PropsCancelCol Caught PropsCaughtSeg PropsCaughtTorn PropsCaughtDespite PropsCaughtStay
  PropsEarly PropsGrowing Timing TimingProofs TimingSegment PropsTiming PropsTimingCrash PropsCaughtTiming PropsCaughtTimed.
From Coq Require Import Permutation.
Open Scope nat_scope.

(** A block read from beginnings of a file that has it. *)
Lemma read_beginnings q plan (file : nat -> list N) (pre b post : list N) : (forall k, exists more, pre ++ b ++ post = file k ++ more) -> (N.of_nat (length (pre ++ b ++ post)) < 9223372036854775808)%N ->
  read_block_changing q file plan (N.of_nat (length pre)) (N.of_nat (length pre) + N.of_nat (length b)) = Ret (Ok b)
  \/ read_block_changing q file plan (N.of_nat (length pre)) (N.of_nat (length pre) + N.of_nat (length b)) = Ret Err.
Proof.
  intros PR SZ. rewrite !app_length in SZ. unfold read_block_changing, sub64, usub.
  rewrite (proj2 (N.leb_le (N.of_nat (length pre)) (N.of_nat (length pre) + N.of_nat (length b))) ltac:(lia)). cbn [bind].
  replace (N.of_nat (length pre) + N.of_nat (length b) - N.of_nat (length pre))%N with (N.of_nat (length b)) by lia.
  rewrite (proj2 (N.leb_gt 9223372036854775808 (N.of_nat (length b))) ltac:(lia)). rewrite Nat2N.id.
  assert (SB : firstn (length b) (skipn (N.to_nat (N.of_nat (length pre))) (pre ++ b ++ post)) = b).
  { rewrite Nat2N.id, skipn_app, skipn_all, Nat.sub_diag. cbn [skipn app]. rewrite firstn_app, firstn_all, Nat.sub_diag. cbn [firstn]. apply app_nil_r. }
  destruct (changing_prefix file (pre ++ b ++ post) PR (length plan + length b + 1) 0 plan (N.of_nat (length b)) (N.of_nat (length pre)) [] ltac:(rewrite Nat2N.id; lia) ltac:(rewrite !app_length; lia)) as [Z|Z]; rewrite Z; [left|right; reflexivity].
  rewrite Nat2N.id, SB. reflexivity.
Qed.

(** Being created once is seen from the events of a file. *)
Lemma created_events f a b : events f a = events f b -> created_at f a -> created_at f b.
Proof.
  intros E (x & y & -> & FX & FY). rewrite events_app in E. symmetry in E. destruct (events_split _ _ _ _ E) as (l & r & -> & EL & ER).
  assert (OF : forall g log, Forall (fun e => e <> FCreate g) log <-> Forall (fun e => e <> FCreate g) (events g log)).
  { intros g log. rewrite !Forall_forall. split; intros H e I.
    - apply filter_In in I. apply H, I.
    - intros ->. apply (H (FCreate g)); [|reflexivity]. apply filter_In. split; [exact I|]. cbn [event_path]. destruct (path_dec g g); [reflexivity|congruence]. }
  assert (EH : events f (FCreate f :: y) = [FCreate f] ++ events f y) by (unfold events; cbn [filter event_path]; destruct (path_dec f f); [reflexivity|congruence]). rewrite EH in ER.
  destruct (events_split _ _ _ _ ER) as (m & n & -> & EM & EN).
  assert (IM : In (FCreate f) m) by (assert (X : In (FCreate f) (events f m)) by (rewrite EM; left; reflexivity); apply filter_In in X; apply X).
  apply in_split in IM. destruct IM as (m1 & m2 & ->). rewrite events_app in EM.
  assert (EH2 : events f (FCreate f :: m2) = FCreate f :: events f m2) by (unfold events; cbn [filter event_path]; destruct (path_dec f f); [reflexivity|congruence]). rewrite EH2 in EM.
  assert (Z : events f m1 = [] /\ events f m2 = []).
  { assert (L := f_equal (@length _) EM). rewrite app_length in L. cbn [length] in L. split; apply length_zero_iff_nil; lia. }
  destruct Z as [Z1 Z2]. exists (l ++ m1), (m2 ++ n). split; [rewrite <- !app_assoc; reflexivity|].
  split; apply Forall_app; split; apply (proj2 (OF _ _)).
  - rewrite EL. apply (proj1 (OF f x) FX).
  - rewrite Z1. constructor.
  - rewrite Z2. constructor.
  - rewrite EN. apply (proj1 (OF f y) FY).
Qed.

(** C109 for every schedule of the background threads: while a segment, whose close and
    sync are going to report no error, is being written, every [pread] may find its
    data file as it is at another moment, or a beginning of that.  A block read where
    it is going to be is the block or an error. *)
Theorem C109_any_timing : forall d p w base info cols it timing st outs (file : nat -> list N) before r b after q plan,
  0 < wd_max w -> is_id (si_segment_id info) -> wd_log w = [] -> d (data_path base (si_segment_id info)) = None ->
  (forall l, Permutation l (it_columns it l)) /\ (forall l, Permutation l (it_layouts it l)) ->
  bg_client (caught_client p base info (then_close cols it)) (bg_none w timing) = Some (st, Ret (Ok (outs ++ [[Ret (Ok tt)]], Ok tt))) -> Forall none_reported outs ->
  (forall k, exists log rest unseen, wd_log (bs_os st) = log ++ rest /\ directory_after d log (data_path base (si_segment_id info)) = Some (file k ++ unseen)) ->
  blocks_of_columns p cols = before ++ (r, b) :: after -> (N.of_nat (13 + length (concat (map snd (blocks_of_columns p cols)))) < 9223372036854775808)%N ->
  let from := N.of_nat (13 + length (concat (map snd before))) in
  read_block_changing q file plan from (from + N.of_nat (length b))%N = Ret (Ok b) \/ read_block_changing q file plan from (from + N.of_nat (length b))%N = Ret Err.
Proof.
  intros d p w base info cols it timing st outs file before r b after q plan M ID L0 D0 O BG A VI EB SZ from.
  destruct (C103_any_timing d p w base info cols it timing st outs M ID O BG A) as (_ & DD & _).
  destruct (C76_caught p w base info (then_close cols it) timing ID) as (st' & out & fates & w1 & BG' & CP & EQ). rewrite BG in BG'. injection BG' as <- <-.
  specialize (EQ _ eq_refl d (data_path base (si_segment_id info))). destruct EQ as [EV _].
  destruct (program_closed _ _ _ _ _ _ _ _ CP) as (wa & sg & wb & sgb & wc & sgc & NW & CC & SC & SY).
  destruct (segment_new_ahead d (mkworld (wd_log w) fates (wd_max w)) base info wa sg M ID L0 NW) as (CR & _).
  destruct (C49_distinct base _ _ ID ID) as (_ & _ & NE). destruct (segment_new_touches d (mkworld (wd_log w) fates (wd_max w)) _ _ _ _ M ID NW) as (_ & B).
  assert (CS : caught_seg p wa sg (then_close cols it) = (wc, sgc, outs ++ [[Ret (Ok tt)]])) by (unfold then_close; rewrite caught_seg_app, caught_seg_columns, CC; cbn [caught_seg]; rewrite SC; reflexivity).
  destruct (caught_seg_grows d p _ _ NE _ _ _ _ _ _ B CS) as (G1 & B2). pose proof (grows_trans _ _ _ _ G1 (segment_sync_grows d _ _ NE _ _ _ _ B2 SY)) as (m & LM & FM).
  set (fd := data_path base (si_segment_id info)) in *.
  assert (CR1 : created_at fd (wd_log w1)) by (rewrite LM; apply created_at_app; [exact CR|]; eapply Forall_impl; [|exact FM]; cbn; intros e [_ X]; apply X).
  symmetry in EV. pose proof (created_events _ _ _ EV CR1) as CR2.
  rewrite EB in DD, SZ. rewrite map_app, concat_app in DD, SZ. cbn [map snd concat] in DD, SZ.
  set (pre := [77; 69; 69; 82; 75; 65; 84; 95; 68; 65; 84; 65; 49]%N ++ concat (map snd before)).
  assert (LP : length pre = 13 + length (concat (map snd before))) by (subst pre; rewrite app_length; reflexivity).
  assert (DP : directory_after d (wd_log (bs_os st)) fd = Some (pre ++ b ++ concat (map snd after))) by (rewrite DD; subst pre; rewrite <- !app_assoc; reflexivity).
  unfold from. rewrite <- LP. apply (read_beginnings q plan file pre b (concat (map snd after))).
  - intros k. destruct (VI k) as (log & rest & unseen & LG & DS). rewrite LG in CR2, DP. destruct (seen_before d fd log rest _ _ D0 CR2 DS DP) as (more & E). exists (unseen ++ more). rewrite E, <- app_assoc. reflexivity.
  - rewrite !app_length in SZ. rewrite !app_length, LP. lia.
Qed.
Print Assumptions C109_any_timing.

(** The columns of [C76_caught_witness] with its timing.  The first [pread] finds what
    the file has after so many effects on the two files, the next one all of it. *)
Definition timed_run : option (result (list (list (outcome (result unit))) * result unit) * list fs_event) :=
  match bg_client (caught_client Debug ex_base ex_info (then_close ex_caught ex_it)) (bg_none (mkworld [] [] 20) [[]; []; []; [0]; [1]; [1]; [0]; [1]; [0; 1]; [1]; [0]; [0]; [1]]) with
  | Some (st, Ret out) => Some (out, wd_log (bs_os st))
  | _ => None
  end.

Definition timed_file (n : nat) (k : nat) : list N :=
  match timed_run with
  | Some (_, log) => match directory_after (fun _ => None) (if k =? 0 then firstn n log else log) (data_path ex_base (si_segment_id ex_info)) with Some file => file | None => [] end
  | None => []
  end.

Example C109_timing_witness :
  match timed_run with
  | Some (Ok (outs, r), log) => nth 2 (nth 1 outs []) (Ret Err) = Panic PAssert /\ Forall none_reported outs /\ r = Ok tt
  | _ => False
  end
  /\ length (timed_file 6 0) = 53 /\ length (timed_file 6 1) = 210
  /\ read_block_changing Debug (timed_file 6) [] 13 151 = Ret (Ok (snd (nth 0 (blocks_of_columns Debug ex_caught) (0%N, []))))
  /\ read_block_changing Debug (fun _ => timed_file 6 0) [] 13 151 = Ret Err.
Proof.
  split; [|vm_compute; repeat split; reflexivity].
  vm_compute. split; [reflexivity|]. split; [|reflexivity]. repeat constructor; discriminate.
Qed.
