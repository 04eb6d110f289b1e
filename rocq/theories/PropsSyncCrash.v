(** C77: what a block writer synced stays, whatever happens to the file
    afterwards. *)
From Verif Require Import Base BaseProofs Buffers Sink Io SpecIo IoProofs IoReadProofs PropsIo Names PropsNames Segment SpecSegment SegmentRunProofs
  PropsReadBack PropsIoLoss PropsCrash PropsSync TimingProofs PropsTimingCrash.
Open Scope nat_scope.

(** ** Files that were synced and only grow *)

Definition synced_as (contents : list N) (s : crash_file) : Prop :=
  exists more, cf_cur s = Some (contents ++ more) /\ length contents <= cf_synced s /\ forall left, ~ cf_older s left.

Lemma synced_step f contents e s : e <> FCreate f -> synced_as contents s -> synced_as contents (crash_step true f s e).
Proof.
  intros NC (more & C & L & O). destruct e as [g|g b|g]; cbn [crash_step]; destruct (path_dec f g) as [<-|NE]; try (exists more; split; [exact C|split; [exact L|exact O]]).
  - congruence.
  - exists (more ++ b). cbn [cf_cur cf_synced cf_older]. rewrite C. cbn [option_map]. rewrite <- app_assoc. auto.
  - exists more. cbn [cf_cur cf_synced cf_older]. rewrite C, app_length. split; [reflexivity|]. split; [lia|]. intros left [X _].
    destruct (cf_named s); discriminate X.
Qed.

Lemma synced_fold f contents later : forall s, Forall (fun e => e <> FCreate f) later -> synced_as contents s ->
  synced_as contents (fold_left (crash_step true f) later s).
Proof.
  induction later as [|e later IH]; intros s F SY; [exact SY|]. apply Forall_cons_iff in F. destruct F as [F1 F2].
  cbn [fold_left]. apply IH; [exact F2|]. apply synced_step; assumption.
Qed.

Lemma synced_leaves contents s left : synced_as contents s -> crash_leaves s left -> exists tail, left = Some (contents ++ tail).
Proof.
  intros (more & C & L & O) [X|X]; [destruct (O _ X)|]. rewrite C in X. destruct left as [l|]; [|contradiction]. destruct X as [[L1 L2] X].
  exists (skipn (length contents) l). f_equal. rewrite <- (firstn_skipn (length contents) l) at 1. f_equal.
  assert (LF : length (firstn (length contents) l) = length contents) by (rewrite firstn_length; lia).
  apply nth_ext with (d := 0%N) (d' := 0%N); [exact LF|]. intros i I. rewrite LF in I.
  assert (E : nth i (firstn (length contents) l) 0%N = nth i l 0%N).
  { rewrite <- (firstn_skipn (length contents) l) at 2. rewrite app_nth1 by lia. reflexivity. }
  rewrite E. destruct (X i ltac:(lia)) as [Y|[Y _]]; [|lia]. rewrite Y. apply app_nth1, I.
Qed.

Lemma crash_after_sync_grows d f a later d' contents : Forall (fun e => e <> FCreate f) later ->
  directory_after d (a ++ [FSync f]) f = Some contents -> after_crash true d ((a ++ [FSync f]) ++ later) d' ->
  exists tail, d' f = Some (contents ++ tail).
Proof.
  intros F D AC. specialize (AC f). change (crash_leaves (crash_state true d f ((a ++ [FSync f]) ++ later)) (d' f)) in AC.
  rewrite crash_state_app in AC. eapply synced_leaves; [|exact AC]. apply synced_fold; [exact F|]. clear AC.
  pose proof (crash_cur true d f (a ++ [FSync f])) as C. rewrite D in C. rewrite crash_state_app in *. cbn [fold_left crash_step] in *.
  destruct (path_dec f f); [|congruence]. cbn [cf_cur] in C. exists []. cbn [cf_cur cf_synced cf_older]. rewrite C, app_nil_r. split; [reflexivity|]. split; [lia|].
  intros left [X _]. destruct (cf_named (crash_state true d f a)); discriminate X.
Qed.

Lemma run_touch d f ops : forall w wr w1 wr1 rs, opened d f w wr -> writer_run w wr ops = (w1, wr1, rs) -> extends f w w1 /\ opened d f w1 wr1.
Proof.
  induction ops as [|o ops IH]; intros w wr w1 wr1 rs O H; cbn [writer_run] in H; [injection H as <- <- <-; split; [apply extends_refl|exact O]|].
  destruct (writer_step w wr o) as [[wa wra] r] eqn:S0. destruct (writer_run wa wra ops) as [[wb wrb] r'] eqn:R. injection H as <- <- <-.
  assert (X : extends f w wa /\ opened d f wa wra).
  { destruct o as [b| |]; cbn [writer_step] in S0;
      [destruct (write_touch _ _ _ _ _ _ _ _ O S0) as (A & B & _)|destruct (flush_touch _ _ _ _ _ _ _ O S0) as (A & B & _)|destruct (sync_touch _ _ _ _ _ _ _ O S0) as (A & B & _)]; auto. }
  destruct X as [A B]. destruct (IH _ _ _ _ _ B R) as [C D]. split; [eapply extends_trans; eassumption|exact D].
Qed.

(** C77.  A block writer, used in any way and with any failures; at some point a
    sync reports success.  Afterwards the file may be written and synced further,
    and anything may happen to other files.  Whenever the machine stops then, the
    file starts with all that it held when the sync returned. *)
Theorem C77_synced_prefix : forall d w f w1 wr ops w2 wr2 rs later d',
  0 < wd_max w -> writer_new w f = (w1, Ok wr) -> writer_run w1 wr (ops ++ [WSync]) = (w2, wr2, rs ++ [Ok tt]) ->
  Forall (fun e => e <> FCreate f) later -> after_crash true d (wd_log w2 ++ later) d' ->
  exists contents tail, directory_after d (wd_log w2) f = Some contents /\ d' f = Some (contents ++ tail).
Proof.
  intros d w f w1 wr ops w2 wr2 rs later d' M NW R F AC. rewrite writer_run_app in R. destruct (writer_run w1 wr ops) as [[wa wra] r1] eqn:R1.
  cbn [writer_run writer_step] in R. destruct (writer_sync wa wra) as [[wb wrb] r] eqn:SY. injection R as <- <- ER. apply app_inj_tail in ER. destruct ER as [<- ->].
  pose proof (sound_opened _ _ _ _ _ (new_sound d _ _ _ _ M NW)) as O1. destruct (run_touch _ _ _ _ _ _ _ _ O1 R1) as [_ O2].
  destruct (sync_log _ _ _ _ _ _ O2 SY) as [a L]. destruct (sync_touch _ _ _ _ _ _ _ O2 SY) as (_ & (_ & _ & c & H) & _). unfold holds in H.
  rewrite L in *. destruct (crash_after_sync_grows _ _ _ _ _ _ F H AC) as [tail E]. eauto.
Qed.
Print Assumptions C77_synced_prefix.

(** The later calls may be those of the same writer, all of them or up to the
    crash, with the effects on other files in between. *)
Theorem C77_later_calls : forall d w f w1 wr ops w2 wr2 rs more w3 wr3 rs3 mine rest later d',
  0 < wd_max w -> writer_new w f = (w1, Ok wr) -> writer_run w1 wr (ops ++ [WSync]) = (w2, wr2, rs ++ [Ok tt]) ->
  writer_run w2 wr2 more = (w3, wr3, rs3) -> wd_log w3 = wd_log w2 ++ mine ++ rest ->
  filter (fun e => if path_dec f (event_path e) then true else false) later = mine -> after_crash true d (wd_log w2 ++ later) d' ->
  exists contents tail, directory_after d (wd_log w2) f = Some contents /\ d' f = Some (contents ++ tail).
Proof.
  intros d w f w1 wr ops w2 wr2 rs more w3 wr3 rs3 mine rest later d' M NW R R3 L EM AC. eapply C77_synced_prefix; try eassumption.
  pose proof (sound_opened _ _ _ _ _ (new_sound d _ _ _ _ M NW)) as O1. destruct (run_touch _ _ _ _ _ _ _ _ O1 R) as [_ O2].
  destruct (run_touch _ _ _ _ _ _ _ _ O2 R3) as [(_ & m & L' & F & _) _]. rewrite L in L'. apply app_inv_head in L'. subst m. apply Forall_app in F. destruct F as [F _].
  rewrite <- EM in F. apply Forall_forall. intros e I ->. rewrite Forall_forall in F. destruct (F (FCreate f)) as [_ X]; [|congruence].
  apply filter_In. split; [exact I|]. cbn [event_path]. destruct (path_dec f f); congruence.
Qed.
Print Assumptions C77_later_calls.

(** If all calls reported success and the blocks were flushed before the sync, all
    of them are found after the crash, each at the position the writer had before
    it was written. *)
Theorem C77_blocks_found : forall d w f w1 wr ops w2 wr2 rs later d' file before b after,
  0 < wd_max w -> writer_new w f = (w1, Ok wr) -> writer_run w1 wr (ops ++ [WFlush; WSync]) = (w2, wr2, rs) -> Forall (fun r => r = Ok tt) rs ->
  Forall (fun e => e <> FCreate f) later -> after_crash true d (wd_log w2 ++ later) d' -> d' f = Some file -> file_ok file ->
  ops = before ++ WBlock b :: after ->
  reads_as_block file (N.of_nat (length (blocks_of before)), N.of_nat (length (blocks_of before) + length b)) b.
Proof.
  intros d w f w1 wr ops w2 wr2 rs later d' file before b after M NW R K F AC DF FO EO.
  pose proof (C63_flush_then_sync_partial d _ _ _ _ _ _ _ _ M NW R K) as DA.
  assert (X : exists contents tail, directory_after d (wd_log w2) f = Some contents /\ d' f = Some (contents ++ tail)).
  { change [WFlush; WSync] with ([WFlush] ++ [WSync]) in R. rewrite app_assoc in R.
    assert (ER : exists rs0, rs = rs0 ++ [Ok tt]).
    { rewrite writer_run_app in R. destruct (writer_run w1 wr (ops ++ [WFlush])) as [[wa wra] r1]. cbn [writer_run] in R. destruct (writer_step wa wra WSync) as [[wb wrb] r].
      injection R as <- <- <-. apply Forall_app in K. destruct K as [_ K]. apply Forall_cons_iff in K. destruct K as [-> _]. eauto. }
    destruct ER as [rs0 ->]. eapply C77_synced_prefix; eassumption. }
  destruct X as (contents & tail & D1 & D2). rewrite DA in D1. injection D1 as <-. rewrite DF in D2. injection D2 as ->.
  subst ops. rewrite blocks_of_app in *. cbn [blocks_of] in *. unfold file_ok in FO. rewrite !app_length in FO. intros q plan. cbn [fst snd].
  destruct (read_block_spec q (((blocks_of before) ++ b ++ blocks_of after) ++ tail) plan (N.of_nat (length (blocks_of before))) (N.of_nat (length (blocks_of before) + length b)))
    as (r & E & HO & HE); [rewrite !app_length; lia|unfold u64_lim; lia|unfold u64_lim; lia|]. rewrite E. destruct r as [bs|].
  - left. destruct (HO _ eq_refl) as (-> & _). f_equal. f_equal. rewrite Nat2N.id. replace (N.to_nat (N.of_nat (length (blocks_of before) + length b) - N.of_nat (length (blocks_of before)))) with (length b) by lia.
    rewrite <- !app_assoc, skipn_app, skipn_all, Nat.sub_diag. cbn [app skipn]. rewrite firstn_app, firstn_all, Nat.sub_diag, firstn_O. apply app_nil_r.
  - right. split; [reflexivity|]. destruct (HE eq_refl) as [[X|X]|X]; [lia| |exact X]. exfalso. rewrite !app_length in X. lia.
Qed.
Print Assumptions C77_blocks_found.

(** Chunks of two bytes. Two blocks, flushed and synced; then one more, of which
    nothing is synced, while another file is created. The crash keeps one byte of
    it, as zero. Reading finds the second block although the system reads one byte
    at a time. *)
Example C77_witness :
  let ops := [WBlock [1; 2; 3]; WBlock [4; 5]]%N in
  let d' := fun f : path => if path_dec f [7%N] then Some [1; 2; 3; 4; 5; 0]%N else None in
  match writer_new (mkworld [] [] 2) [7%N] with
  | (w1, Ok wr) =>
      let '(w2, wr2, rs) := writer_run w1 wr (ops ++ [WFlush; WSync]) in
      let '(w3, wr3, rs3) := writer_run w2 wr2 [WBlock [6; 7; 8]%N; WFlush] in
      rs = [Ok tt; Ok tt; Ok tt; Ok tt] /\ rs3 = [Ok tt; Ok tt]
      /\ wd_log w3 = wd_log w2 ++ [FAppend [7] [6; 7]; FAppend [7] [8]]%N
      /\ after_crash true (fun _ => None) (wd_log w2 ++ [FAppend [7] [6; 7]; FCreate [9]]%N) d'
      /\ read_block Debug [1; 2; 3; 4; 5; 0]%N [PShort 1; PInterrupted; PShort 1] 3 5 = Ret (Ok [4; 5]%N)
  | _ => False end.
Proof.
  intros ops d'. destruct (writer_new (mkworld [] [] 2) [7%N]) as [w1 [wr|]] eqn:E1; [|vm_compute in E1; discriminate E1].
  vm_compute in E1. injection E1 as <- <-.
  destruct (writer_run _ _ (ops ++ [WFlush; WSync])) as [[w2 wr2] rs] eqn:E2. vm_compute in E2. injection E2 as <- <- <-.
  destruct (writer_run _ _ [WBlock [6; 7; 8]%N; WFlush]) as [[w3 wr3] rs3] eqn:E3. vm_compute in E3. injection E3 as <- <- <-.
  split; [reflexivity|]. split; [reflexivity|]. split; [reflexivity|]. split; [|vm_compute; reflexivity].
  intros f. unfold d'. cbn [wd_log app fold_left crash_step].
  destruct (path_dec f [7%N]) as [->|N7]; [|destruct (path_dec f [9%N]) as [->|N9]]; cbn [cf_cur cf_synced cf_older cf_named option_map app length].
  - destruct (path_dec [7%N] [9%N]) as [X|_]; [discriminate X|]. right. cbn [cf_cur cf_synced]. split; [cbn [length]; lia|].
    intros i I. destruct i as [|[|[|[|[|[|i]]]]]]; try (left; reflexivity); [right; split; [lia|reflexivity]|cbn [length] in I; lia].
  - left. right. exact I.
  - right. exact I.
Qed.
