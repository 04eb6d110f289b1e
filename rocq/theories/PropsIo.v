(** C39, C40, C41, C43, C44: the block writer and reading ranges. *)
From Verif Require Import Base Io SpecIo IoProofs IoReadProofs.
Open Scope nat_scope.

(** ** Runs of a block writer *)

Lemma writer_new_inv : forall d w f w1 wr,
  writer_new w f = (w1, Ok wr) ->
  wd_max w1 = wd_max w /\ tf_path (wr_file wr) = f /\ tf_err (wr_file wr) = false
  /\ tf_busy (wr_file wr) = None /\ wr_pos wr = 0%N /\ holds d w1 f []
  /\ (all_succeed w -> all_succeed w1).
Proof.
  intros d w f w1 wr E. unfold writer_new, tk_create in E.
  destruct (next_fate w) as [fate w0] eqn:NF.
  destruct (next_fate_inv _ _ _ NF) as (_ & M & (g & G & _) & _).
  destruct fate; inversion E; subst; cbn [effect wd_max wr_file tf_path tf_err tf_busy wr_pos].
  repeat split; auto.
  - unfold holds. cbn [effect wd_log]. rewrite directory_after_app.
    cbn [directory_after fold_left apply_effect]. destruct (path_dec f f); congruence.
  - intros A. unfold all_succeed in *. rewrite G in A. apply Forall_app in A. cbn. tauto.
Qed.

Lemma writer_pos_run : forall ops w wr w1 wr1 rs,
  writer_run w wr ops = (w1, wr1, rs) ->
  wr_pos wr1 = (wr_pos wr + N.of_nat (length (blocks_of ops)))%N.
Proof.
  induction ops as [|o ops IH]; intros w wr w1 wr1 rs E; cbn in E.
  - inversion E; subst. cbn. lia.
  - destruct (writer_step w wr o) as [[w0 wr0] r] eqn:S0.
    destruct (writer_run w0 wr0 ops) as [[w2 wr2] rs2] eqn:R2. inversion E; subst.
    rewrite (IH _ _ _ _ _ R2). destruct o as [b| |]; cbn in S0.
    + unfold writer_write_block in S0. destruct (tk_write_all _ _ _ _) as [[a f1] rr].
      inversion S0; subst. cbn. rewrite app_length. lia.
    + unfold writer_flush in S0. destruct (tk_flush _ _) as [[a f1] rr]. inversion S0; subst. reflexivity.
    + unfold writer_sync in S0. destruct (tk_sync_all _ _) as [[a f1] rr]. inversion S0; subst. reflexivity.
Qed.

(** [done] is what was handed over; unless an error is being kept for later,
    the file and the chunk in flight make up exactly that. *)
Definition sound (d : directory) (f : path) (w : world) (wr : writer) (done : list N) : Prop :=
  0 < wd_max w /\ tf_path (wr_file wr) = f
  /\ exists c, holds d w f c /\ (tf_err (wr_file wr) = true \/ c ++ pending (wr_file wr) = done).

Lemma writer_step_sound : forall d f w wr done o w1 wr1 r,
  sound d f w wr done -> writer_step w wr o = (w1, wr1, r) -> (o = WSync \/ r = Ok tt) ->
  sound d f w1 wr1 (done ++ blocks_of [o]).
Proof.
  intros d f w wr done o w1 wr1 r (M & P & c & H & X) E K.
  rewrite <- P in H. destruct o as [b| |]; cbn [writer_step] in E; cbn [blocks_of]; rewrite app_nil_r.
  - destruct K as [K| ->]; [discriminate|].
    unfold writer_write_block in E. destruct (tk_write_all _ _ _ _) as [[a f1] rr] eqn:W.
    inversion E; subst a wr1 rr; clear E.
    destruct (tk_write_all_spec _ _ _ _ _ _ _ _ _ W H (le_n _) M)
      as (P1 & HE & HX1 & HX2 & HO & _).
    unfold sound. cbn [wr_file]. destruct HE as (HM & _).
    split; [lia|]. split; [congruence|].
    destruct b as [|b0 b].
    + cbn in W. inversion W; subst. rewrite app_nil_r. exists c. split; [assumption|]. assumption.
    + destruct X as [X|X]; [specialize (HX2 ltac:(discriminate) X); discriminate|].
      destruct HO as (pre & chunk & Eb & _ & _ & B1 & H1 & _); [discriminate|reflexivity|].
      exists (c ++ pending (wr_file wr) ++ pre). rewrite P in H1. split; [assumption|]. right.
      unfold pending at 2. rewrite B1, Eb, <- X, <- !app_assoc. reflexivity.
  - destruct K as [K| ->]; [discriminate|].
    unfold writer_flush in E. destruct (tk_flush _ _) as [[a f1] rr] eqn:W.
    inversion E; subst a wr1 rr; clear E.
    destruct (tk_flush_spec _ _ _ _ _ _ _ W H) as (P1 & HE & X1 & HT & HB & HO & _).
    unfold sound. cbn [wr_file]. destruct HE as (HM & _).
    split; [lia|]. split; [congruence|].
    destruct (HO eq_refl) as (H1 & X0). destruct X as [X|X]; [congruence|].
    exists (c ++ pending (wr_file wr)). rewrite P in H1. split; [assumption|]. right.
    unfold pending at 2. rewrite (HB X0), app_nil_r. assumption.
  - unfold writer_sync in E. destruct (tk_sync_all _ _) as [[a f1] rr] eqn:W.
    inversion E; subst a wr1 rr; clear E.
    destruct (tk_sync_all_spec _ _ _ _ _ _ _ W H) as (P1 & HE & HS & HB & (k & HK) & _).
    unfold sound. cbn [wr_file]. destruct HE as (HM & _).
    split; [lia|]. split; [congruence|]. rewrite P in *.
    destruct HS as [X1|(X0 & B1 & H1)].
    + eexists. split; [exact HK|]. left. assumption.
    + destruct X as [X|X]; [congruence|].
      exists (c ++ pending (wr_file wr)). split; [assumption|]. right.
      unfold pending at 2. rewrite B1, app_nil_r. assumption.
Qed.

Lemma blocks_of_app : forall a b, blocks_of (a ++ b) = blocks_of a ++ blocks_of b.
Proof.
  induction a as [|o a IH]; intros b; [reflexivity|]. destruct o; cbn; rewrite IH; auto using app_assoc.
Qed.

Lemma writer_run_sound : forall ops d f w wr done w1 wr1 rs,
  sound d f w wr done -> writer_run w wr ops = (w1, wr1, rs) -> reports_ok ops rs ->
  sound d f w1 wr1 (done ++ blocks_of ops).
Proof.
  induction ops as [|o ops IH]; intros d f w wr done w1 wr1 rs S0 E K; cbn in E.
  - inversion E; subst. cbn. rewrite app_nil_r. assumption.
  - destruct (writer_step w wr o) as [[w0 wr0] r] eqn:W.
    destruct (writer_run w0 wr0 ops) as [[w2 wr2] rs2] eqn:R2. inversion E; subst.
    inversion K; subst.
    replace (done ++ blocks_of (o :: ops)) with ((done ++ blocks_of [o]) ++ blocks_of ops).
    2:{ rewrite <- app_assoc, <- blocks_of_app. reflexivity. }
    eapply IH; [eapply writer_step_sound; eassumption|eassumption|assumption].
Qed.

Lemma writer_run_app : forall a b w wr,
  writer_run w wr (a ++ b) =
  let '(w1, wr1, r1) := writer_run w wr a in
  let '(w2, wr2, r2) := writer_run w1 wr1 b in (w2, wr2, r1 ++ r2).
Proof.
  induction a as [|o a IH]; intros b w wr.
  - cbn. destruct (writer_run w wr b) as [[? ?] ?]. reflexivity.
  - cbn. destruct (writer_step w wr o) as [[w0 wr0] r]. rewrite IH.
    destruct (writer_run w0 wr0 a) as [[w1 wr1] r1].
    destruct (writer_run w1 wr1 b) as [[w2 wr2] r2]. reflexivity.
Qed.

Lemma writer_run_length : forall ops w wr w1 wr1 rs,
  writer_run w wr ops = (w1, wr1, rs) -> length rs = length ops.
Proof.
  induction ops as [|o ops IH]; intros w wr w1 wr1 rs E; cbn in E.
  - inversion E. reflexivity.
  - destruct (writer_step w wr o) as [[w0 wr0] r]. destruct (writer_run w0 wr0 ops) as [[w2 wr2] rs2] eqn:R.
    inversion E; subst. cbn. f_equal. eapply IH. eassumption.
Qed.

Lemma Forall2_len : forall A B (R : A -> B -> Prop) l1 l2, Forall2 R l1 l2 -> length l1 = length l2.
Proof. induction 1; cbn; congruence. Qed.

(** Splitting a run that ended well. *)
Lemma writer_run_split : forall a b w wr w2 wr2 rs,
  writer_run w wr (a ++ b) = (w2, wr2, rs) -> reports_ok (a ++ b) rs ->
  exists w1 wr1 r1 r2,
    writer_run w wr a = (w1, wr1, r1) /\ reports_ok a r1
    /\ writer_run w1 wr1 b = (w2, wr2, r2) /\ reports_ok b r2 /\ rs = r1 ++ r2.
Proof.
  intros a b w wr w2 wr2 rs E K. rewrite writer_run_app in E.
  destruct (writer_run w wr a) as [[w1 wr1] r1] eqn:Ra.
  destruct (writer_run w1 wr1 b) as [[w3 wr3] r2] eqn:Rb. inversion E; subst.
  exists w1, wr1, r1, r2. unfold reports_ok in *.
  apply Forall2_app_inv_l in K. destruct K as (x1 & x2 & K1 & K2 & Ex).
  assert (L : length x1 = length r1).
  { rewrite <- (Forall2_len _ _ _ _ _ K1). symmetry. eapply writer_run_length. eassumption. }
  assert (x1 = r1 /\ x2 = r2) as [-> ->].
  { clear -Ex L. revert r1 L Ex. induction x1 as [|y x1 IH]; intros [|z r1] L Ex; try discriminate.
    - auto.
    - cbn in *. inversion Ex; subst. destruct (IH r1) as [-> ->]; auto. }
  auto.
Qed.

Lemma new_sound : forall d w f w1 wr,
  0 < wd_max w -> writer_new w f = (w1, Ok wr) -> sound d f w1 wr [].
Proof.
  intros d w f w1 wr M N. destruct (writer_new_inv d _ _ _ _ N) as (HM & P & X & B & _ & H & _).
  split; [lia|]. split; [assumption|]. exists []. split; [assumption|]. right.
  unfold pending. rewrite B. reflexivity.
Qed.

Lemma flush_sound : forall d f w wr done w1 wr1,
  sound d f w wr done -> writer_flush w wr = (w1, wr1, Ok tt) ->
  directory_after d (wd_log w1) f = Some done.
Proof.
  intros d f w wr done w1 wr1 (M & P & c & H & X) E. unfold writer_flush in E.
  destruct (tk_flush _ _) as [[a f1] rr] eqn:W. inversion E; subst a wr1 rr; clear E.
  rewrite <- P in H.
  destruct (tk_flush_spec _ _ _ _ _ _ _ W H) as (_ & _ & _ & _ & _ & HO & _).
  destruct (HO eq_refl) as (H1 & X0). destruct X as [X|X]; [congruence|]. subst done f. exact H1.
Qed.

(** ** C44: what a successful flush means *)

(** Whatever the operating system does, if every write and flush of a fresh
    writer reported success and the last operation is a flush, the file holds
    exactly the bytes of all blocks. *)
Theorem C44_flush_means_written : forall d w f w1 wr ops w2 wr2 rs,
  0 < wd_max w ->
  writer_new w f = (w1, Ok wr) ->
  writer_run w1 wr (ops ++ [WFlush]) = (w2, wr2, rs) ->
  reports_ok (ops ++ [WFlush]) rs ->
  directory_after d (wd_log w2) f = Some (blocks_of ops).
Proof.
  intros d w f w1 wr ops w2 wr2 rs M N R K.
  destruct (writer_run_split _ _ _ _ _ _ _ R K) as (wa & wra & r1 & r2 & Ra & Ka & Rb & Kb & _).
  pose proof (writer_run_sound _ _ _ _ _ _ _ _ _ (new_sound d _ _ _ _ M N) Ra Ka) as S1.
  cbn in Rb. destruct (writer_flush wa wra) as [[wb wrb] r] eqn:F. inversion Rb; subst.
  inversion Kb; subst. destruct H2 as [Z| ->]; [discriminate|].
  eapply flush_sound; eassumption.
Qed.
Print Assumptions C44_flush_means_written.

(** So bytes are never lost silently: if, after a final flush, the file is not
    the concatenation of the blocks, then some write or flush said so. *)
Theorem C44_loss_is_reported : forall d w f w1 wr ops w2 wr2 rs,
  0 < wd_max w ->
  writer_new w f = (w1, Ok wr) ->
  writer_run w1 wr (ops ++ [WFlush]) = (w2, wr2, rs) ->
  directory_after d (wd_log w2) f <> Some (blocks_of ops) ->
  exists i o, nth_error (ops ++ [WFlush]) i = Some o /\ o <> WSync /\ nth_error rs i = Some Err.
Proof.
  intros d w f w1 wr ops w2 wr2 rs M N R D.
  assert (L : length rs = length (ops ++ [WFlush])) by (eapply writer_run_length; eassumption).
  assert (DEC : forall os ts, length ts = length os ->
    reports_ok os ts \/
    exists i o, nth_error os i = Some o /\ o <> WSync /\ nth_error ts i = Some (@Err unit)).
  { induction os as [|o os IH]; intros [|t ts] Lt; try discriminate.
    - left. constructor.
    - cbn in Lt. destruct (IH ts) as [G|(i & o' & ? & ? & ?)]; [lia| |].
      + destruct t as [[]|].
        * left. constructor; auto.
        * destruct o; [right; exists 0; eexists; repeat split; try reflexivity; discriminate
                      |right; exists 0; eexists; repeat split; try reflexivity; discriminate
                      |left; constructor; auto].
      + right. exists (S i), o'. auto. }
  destruct (DEC _ _ L) as [K|K]; [|exact K].
  destruct D. eapply C44_flush_means_written; eassumption.
Qed.
Print Assumptions C44_loss_is_reported.

(** A failed background write is noticed at once: a further non-empty write that
    reports success vouches for every block before it, and for all of its own
    block but the last chunk. *)
Theorem C44_next_write_vouches : forall d w f w1 wr ops b w2 wr2 rs,
  0 < wd_max w ->
  writer_new w f = (w1, Ok wr) -> b <> [] ->
  writer_run w1 wr (ops ++ [WBlock b]) = (w2, wr2, rs) ->
  reports_ok (ops ++ [WBlock b]) rs ->
  exists written tail, b = written ++ tail /\ length tail <= wd_max w
    /\ directory_after d (wd_log w2) f = Some (blocks_of ops ++ written).
Proof.
  intros d w f w1 wr ops b w2 wr2 rs M N NE R K.
  destruct (writer_run_split _ _ _ _ _ _ _ R K) as (wa & wra & r1 & r2 & Ra & Ka & Rb & Kb & _).
  pose proof (writer_run_sound _ _ _ _ _ _ _ _ _ (new_sound d _ _ _ _ M N) Ra Ka) as S1.
  cbn in Rb. destruct (writer_write_block wa wra b) as [[wb wrb] r] eqn:F. inversion Rb; subst.
  inversion Kb; subst. destruct H2 as [Z| ->]; [discriminate|].
  destruct S1 as (Ma & P & c & H & X). cbn in X.
  unfold writer_write_block in F. destruct (tk_write_all _ _ _ _) as [[a f1] rr] eqn:W.
  inversion F; subst a wr2 rr; clear F. rewrite <- P in H.
  destruct (tk_write_all_spec _ _ _ _ _ _ _ _ _ W H (le_n _) Ma)
    as (P1 & HE & HX1 & HX2 & HO & _).
  destruct X as [X|X]; [specialize (HX2 NE X); discriminate|].
  destruct (HO NE eq_refl) as (pre & chunk & Eb & _ & Lc & _ & H1 & _).
  assert (EM : wd_max wa = wd_max w).
  { destruct (writer_new_inv d _ _ _ _ N) as (HM & _).
    clear -Ra HM. rewrite <- HM. clear HM. revert w1 wr r1 Ra.
    induction ops as [|o ops IH]; intros w1 wr r1 Ra; cbn in Ra.
    - inversion Ra. reflexivity.
    - destruct (writer_step w1 wr o) as [[w0 wr0] r] eqn:S0.
      destruct (writer_run w0 wr0 ops) as [[w2 wr2] rs2] eqn:R2. inversion Ra; subst.
      rewrite (IH _ _ _ R2). clear -S0.
      assert (WM : forall w f, wd_max (fst (fst (tk_wait w f))) = wd_max w).
      { intros w f. unfold tk_wait, tk_background, next_fate.
        destruct (tf_busy f); [|reflexivity]. destruct (wd_plan w) as [|[?|] ?]; reflexivity. }
      assert (FM : forall w f, wd_max (fst (fst (tk_flush w f))) = wd_max w).
      { intros w f. unfold tk_flush. destruct (tf_err f); [reflexivity|apply WM]. }
      destruct o as [b| |]; cbn in S0.
      + unfold writer_write_block in S0.
        assert (A : forall n w f s, wd_max (fst (fst (tk_write_all n w f s))) = wd_max w).
        { induction n as [|n IHn]; intros w f s; destruct s as [|x s]; try reflexivity.
          cbn [tk_write_all]. unfold tk_write. destruct (tf_err f); [reflexivity|].
          specialize (WM w f). destruct (tk_wait w f) as [[w3 f3] r3]. cbn in WM.
          destruct r3 as [[]|]; [|exact WM].
          destruct (length _ =? 0); [exact WM|]. rewrite IHn. exact WM. }
        specialize (A (length b) w1 (wr_file wr) b).
        destruct (tk_write_all _ _ _ _) as [[a f1] rr]. inversion S0; subst. exact A.
      + unfold writer_flush in S0. specialize (FM w1 (wr_file wr)).
        destruct (tk_flush _ _) as [[a f1] rr]. inversion S0; subst. exact FM.
      + unfold writer_sync, tk_sync_all in S0. specialize (FM w1 (wr_file wr)).
        destruct (tk_flush _ _) as [[a f1] rr]. cbn in FM. unfold next_fate in S0.
        destruct (wd_plan a) as [|[?|] ?]; inversion S0; subst; cbn; assumption. }
  exists pre, chunk. split; [assumption|]. split; [lia|].
  unfold holds in H1. rewrite P in H1. rewrite H1. f_equal. rewrite app_assoc, X. reflexivity.
Qed.
Print Assumptions C44_next_write_vouches.

(** And nothing is reported without a reason: if the operating system does
    everything it is asked, every operation reports success. *)
Theorem C44_no_false_alarm : forall w f ops,
  all_succeed w -> 0 < wd_max w ->
  exists w1 wr, writer_new w f = (w1, Ok wr)
    /\ exists w2 wr2 rs, writer_run w1 wr ops = (w2, wr2, rs)
        /\ Forall (fun r => r = Ok tt) rs.
Proof.
  intros w f ops A M.
  destruct (writer_new w f) as [w1 [wr|]] eqn:N.
  2:{ exfalso. unfold writer_new, tk_create in N. destruct (next_fate w) as [fate w0] eqn:NF.
      destruct (next_fate_inv _ _ _ NF) as (_ & _ & _ & HS). rewrite (HS A) in N. discriminate. }
  exists w1, wr. split; [reflexivity|].
  destruct (writer_new_inv (fun _ => None) _ _ _ _ N) as (HM & P & X & B & _ & H & A1).
  specialize (A1 A). rewrite <- HM in M.
  assert (HH : exists c, holds (fun _ => None) w1 (tf_path (wr_file wr)) c) by (rewrite P; eauto).
  clear N HM P B H A w f. revert w1 wr A1 M X HH.
  induction ops as [|o ops IH]; intros w wr A M X (c & H).
  - exists w, wr, []. split; [reflexivity|constructor].
  - assert (ST : exists w1 wr1, writer_step w wr o = (w1, wr1, Ok tt) /\ all_succeed w1
      /\ 0 < wd_max w1 /\ tf_err (wr_file wr1) = false
      /\ exists c1, holds (fun _ => None) w1 (tf_path (wr_file wr1)) c1).
    { destruct o as [b| |]; cbn.
      - unfold writer_write_block. destruct (tk_write_all _ _ _ _) as [[a f1] rr] eqn:W.
        destruct (tk_write_all_spec _ _ _ _ _ _ _ _ _ W H (le_n _) M)
          as (P1 & HE & HX1 & HX2 & HO & _ & _ & (k & HK & _) & HA).
        rewrite (HA A X). eexists _, _. split; [reflexivity|]. cbn.
        split; [eapply all_succeed_extends; eassumption|]. destruct HE as (HM & _).
        split; [lia|]. split; [auto|]. rewrite P1. eauto.
      - unfold writer_flush. destruct (tk_flush _ _) as [[a f1] rr] eqn:W.
        destruct (tk_flush_spec _ _ _ _ _ _ _ W H) as (P1 & HE & X1 & _ & _ & _ & (k & HK) & HA).
        rewrite (HA A X). eexists _, _. split; [reflexivity|]. cbn.
        split; [eapply all_succeed_extends; eassumption|]. destruct HE as (HM & _).
        split; [lia|]. split; [auto|]. rewrite P1. eauto.
      - unfold writer_sync. destruct (tk_sync_all _ _) as [[a f1] rr] eqn:W.
        destruct (tk_sync_all_spec _ _ _ _ _ _ _ W H) as (P1 & HE & _ & _ & (k & HK) & HA).
        destruct (HA A X) as (X1 & ->). eexists _, _. split; [reflexivity|]. cbn.
        split; [eapply all_succeed_extends; eassumption|]. destruct HE as (HM & _).
        split; [lia|]. split; [auto|]. rewrite P1. eauto. }
    destruct ST as (w1 & wr1 & S1 & A1 & M1 & X1 & C1).
    destruct (IH w1 wr1 A1 M1 X1 C1) as (w2 & wr2 & rs & R & F).
    exists w2, wr2, (Ok tt :: rs). split; [|constructor; auto].
    cbn. rewrite S1, R. reflexivity.
Qed.
Print Assumptions C44_no_false_alarm.

(** Concrete: chunks of three bytes, the second background write stops after one
    byte.  The write in progress when it is noticed reports it. *)
Example C44_witness :
  match writer_new (mkworld [] [None; None; Some 1] 3) [7%N] with
  | (w1, Ok wr) =>
      match writer_run w1 wr [WBlock [1; 2; 3; 4]%N; WBlock [5]%N; WFlush] with
      | (w2, _, rs) =>
          rs = [Ok tt; Err; Ok tt]
          /\ directory_after (fun _ => None) (wd_log w2) [7%N] = Some [1; 2; 3; 4]%N
      end
  | _ => False
  end.
Proof. vm_compute. split; reflexivity. Qed.

Example C44_success_witness :
  match writer_new (mkworld [] [] 3) [7%N] with
  | (w1, Ok wr) =>
      match writer_run w1 wr [WBlock [1; 2; 3; 4]%N; WSync; WBlock []; WBlock [5; 6]%N; WFlush] with
      | (w2, wr2, rs) =>
          reports_ok [WBlock [1; 2; 3; 4]%N; WSync; WBlock []; WBlock [5; 6]%N; WFlush] rs
          /\ directory_after (fun _ => None) (wd_log w2) [7%N] = Some [1; 2; 3; 4; 5; 6]%N
          /\ writer_pos wr2 = 6%N
      end
  | _ => False
  end.
Proof.
  vm_compute. split; [|split; reflexivity].
  repeat (constructor; [first [right; reflexivity|left; reflexivity]|]). constructor.
Qed.

(** ** C39: contents and position *)

(** After successful writes and a successful flush the file is the concatenation
    of the blocks and the position is its length. *)
Theorem C39_contents_and_position : forall d w f w1 wr blocks w2 wr2 rs,
  0 < wd_max w ->
  writer_new w f = (w1, Ok wr) ->
  writer_run w1 wr (map WBlock blocks ++ [WFlush]) = (w2, wr2, rs) ->
  Forall (fun r => r = Ok tt) rs ->
  directory_after d (wd_log w2) f = Some (concat blocks)
  /\ writer_pos wr2 = N.of_nat (length (concat blocks)).
Proof.
  intros d w f w1 wr blocks w2 wr2 rs M N R K.
  assert (EB : forall bs, blocks_of (map WBlock bs) = concat bs).
  { induction bs as [|b bs IH]; [reflexivity|]. cbn. rewrite IH. reflexivity. }
  split.
  - rewrite <- EB. eapply C44_flush_means_written; try eassumption.
    pose proof (writer_run_length _ _ _ _ _ _ R) as L. clear -K L. revert rs K L.
    generalize (map WBlock blocks ++ [WFlush]) as os.
    induction os as [|o os IH]; intros [|r rs] K L; try discriminate; [constructor|].
    apply Forall_cons_iff in K. destruct K as [-> K]. constructor; [auto|]. apply IH; auto.
  - unfold writer_pos. rewrite (writer_pos_run _ _ _ _ _ _ R).
    destruct (writer_new_inv d _ _ _ _ N) as (_ & _ & _ & _ & -> & _).
    rewrite blocks_of_app, EB. cbn. rewrite app_nil_r. reflexivity.
Qed.
Print Assumptions C39_contents_and_position.

Example C39_witness :
  match writer_new (mkworld [FCreate [1%N]; FAppend [1%N] [9%N]] [] 2) [1%N] with
  | (w1, Ok wr) =>
      match writer_run w1 wr (map WBlock [[1; 2; 3]; []; [4]]%N ++ [WFlush]) with
      | (w2, wr2, rs) =>
          Forall (fun r => r = Ok tt) rs
          /\ directory_after (fun _ => None) (wd_log w2) [1%N] = Some [1; 2; 3; 4]%N
          /\ writer_pos wr2 = 4%N
      end
  | _ => False
  end.
Proof. vm_compute. split; [repeat constructor|split; reflexivity]. Qed.

(** ** C41: reading a range of a file *)

(** Files are shorter than 2^63 bytes (the kernel's [off_t]). *)
Definition file_ok (file : list N) : Prop :=
  (N.of_nat (length file) < 9223372036854775808)%N.

Theorem C41_range_in_file : forall p before bs after plan,
  file_ok (before ++ bs ++ after) -> ~ In PFail plan ->
  read_block p (before ++ bs ++ after) plan
    (N.of_nat (length before)) (N.of_nat (length before + length bs)) = Ret (Ok bs).
Proof.
  intros p before bs after plan F NP. unfold file_ok in F. rewrite !app_length in F.
  destruct (read_block_spec p (before ++ bs ++ after) plan
              (N.of_nat (length before)) (N.of_nat (length before + length bs)))
    as (r & Er & HO & HE).
  { rewrite !app_length. exact F. }
  { change u64_lim with 18446744073709551616%N. lia. }
  { change u64_lim with 18446744073709551616%N. lia. }
  rewrite Er. destruct r as [got|].
  - destruct (HO got eq_refl) as (-> & _). f_equal. f_equal.
    replace (N.to_nat (N.of_nat (length before + length bs) - N.of_nat (length before)))
      with (length bs) by lia.
    rewrite Nat2N.id, skipn_app, skipn_all, Nat.sub_diag. cbn.
    rewrite firstn_app, firstn_all, Nat.sub_diag. cbn. apply app_nil_r.
  - exfalso. destruct (HE eq_refl) as [Z|Z]; [|tauto]. rewrite !app_length in Z. lia.
Qed.
Print Assumptions C41_range_in_file.

(** Past the end, or reversed: an error, with overflow checks or without. *)
Theorem C41_bad_range : forall p file plan s e,
  file_ok file -> (s < u64_lim)%N -> (e < u64_lim)%N ->
  (e < s)%N \/ (s < e /\ N.of_nat (length file) < e)%N ->
  read_block p file plan s e = Ret Err.
Proof.
  intros p file plan s e F Hs He B.
  destruct (read_block_spec p file plan s e F Hs He) as (r & Er & HO & _).
  rewrite Er. destruct r as [bs|]; [|reflexivity].
  destruct (HO bs eq_refl) as (_ & R). lia.
Qed.
Print Assumptions C41_bad_range.

(** Whatever the operating system does, a read ends; and if it succeeds, the
    result is the bytes of the range, all of them and no others. *)
Theorem C41_never_other_bytes : forall p file plan s e,
  file_ok file -> (s < u64_lim)%N -> (e < u64_lim)%N ->
  exists r, read_block p file plan s e = Ret r
    /\ forall bs, r = Ok bs ->
         (s <= e)%N /\ N.of_nat (length bs) = (e - s)%N
         /\ (bs = [] \/ exists before after, file = before ++ bs ++ after
                          /\ N.of_nat (length before) = s).
Proof.
  intros p file plan s e F Hs He.
  destruct (read_block_spec p file plan s e F Hs He) as (r & Er & HO & _).
  exists r. split; [exact Er|]. intros bs Eb. destruct (HO bs Eb) as (Hb & R). split; [lia|].
  destruct (N.eq_dec s e) as [->|Ne].
  - rewrite N.sub_diag in *. cbn in Hb. subst bs. cbn. auto.
  - assert (L : length bs = N.to_nat (e - s)).
    { rewrite Hb, firstn_length, skipn_length. lia. }
    split; [lia|]. right.
    exists (firstn (N.to_nat s) file), (skipn (N.to_nat (e - s)) (skipn (N.to_nat s) file)).
    split; [rewrite Hb, firstn_skipn, firstn_skipn; reflexivity|]. rewrite firstn_length. lia.
Qed.
Print Assumptions C41_never_other_bytes.

Example C41_witness :
  file_ok [10; 11; 12; 13; 14]%N
  /\ read_block Release [10; 11; 12; 13; 14]%N [PInterrupted; PShort 0; PShort 1] 1 4
     = Ret (Ok [11; 12; 13]%N)
  /\ read_block Debug [10; 11; 12; 13; 14]%N [] 3 6 = Ret Err
  /\ read_block Debug [10; 11; 12; 13; 14]%N [] 4 1 = Ret Err
  /\ read_block Release [10; 11; 12; 13; 14]%N [] 4 1 = Ret Err
  /\ read_block Release [10; 11; 12; 13; 14]%N [] 18446744073709551615 3 = Ret Err
  /\ read_block Release [10; 11; 12; 13; 14]%N [PShort 1; PFail] 1 4 = Ret Err
  /\ read_block Debug [10; 11; 12; 13; 14]%N [] 99 99 = Ret (Ok []).
Proof. vm_compute. repeat split; reflexivity. Qed.

(** ** C40: blocks are read back by their offsets *)

Theorem C40_read_back : forall d w f w1 wr before b after w2 wr2 r2 w3 wr3 r3 w4 wr4 r4 file p plan,
  0 < wd_max w ->
  writer_new w f = (w1, Ok wr) ->
  writer_run w1 wr before = (w2, wr2, r2) -> reports_ok before r2 ->
  writer_write_block w2 wr2 b = (w3, wr3, r3) -> r3 = Ok tt ->
  writer_run w3 wr3 (after ++ [WFlush]) = (w4, wr4, r4) -> reports_ok (after ++ [WFlush]) r4 ->
  directory_after d (wd_log w4) f = Some file ->
  file_ok file -> ~ In PFail plan ->
  read_block p file plan (writer_pos wr2) (writer_pos wr3) = Ret (Ok b).
Proof.
  intros d w f w1 wr before b after w2 wr2 r2 w3 wr3 r3 w4 wr4 r4 file p plan
         M N R2 K2 W E3 R4 K4 D F NP. subst r3.
  assert (R : writer_run w1 wr (before ++ (WBlock b :: after) ++ [WFlush])
              = (w4, wr4, r2 ++ Ok tt :: r4)).
  { rewrite writer_run_app, R2. cbn [app writer_run writer_step]. rewrite W, R4. reflexivity. }
  rewrite app_assoc in R.
  assert (K : reports_ok ((before ++ WBlock b :: after) ++ [WFlush]) (r2 ++ Ok tt :: r4)).
  { rewrite <- app_assoc. apply Forall2_app; [exact K2|]. cbn. constructor; [auto|exact K4]. }
  pose proof (C44_flush_means_written d _ _ _ _ _ _ _ _ M N R K) as D'.
  rewrite D in D'. inversion D'; subst file. rewrite blocks_of_app. cbn [blocks_of].
  assert (P2 : writer_pos wr2 = N.of_nat (length (blocks_of before))).
  { unfold writer_pos. rewrite (writer_pos_run _ _ _ _ _ _ R2).
    destruct (writer_new_inv d _ _ _ _ N) as (_ & _ & _ & _ & -> & _). reflexivity. }
  assert (P3 : writer_pos wr3 = N.of_nat (length (blocks_of before) + length b)).
  { unfold writer_write_block in W. destruct (tk_write_all _ _ _ _) as [[a f1] rr].
    inversion W; subst. unfold writer_pos in *. cbn. rewrite P2. lia. }
  rewrite P2, P3. apply C41_range_in_file; [|assumption].
  rewrite blocks_of_app in F. exact F.
Qed.
Print Assumptions C40_read_back.

Example C40_witness :
  match writer_new (mkworld [] [] 2) [1%N] with
  | (w1, Ok wr) =>
      match writer_run w1 wr [WBlock [1; 2; 3]%N; WSync] with
      | (w2, wr2, r2) =>
          match writer_write_block w2 wr2 [4; 5; 6]%N with
          | (w3, wr3, r3) =>
              match writer_run w3 wr3 ([WBlock [7]%N] ++ [WFlush]) with
              | (w4, wr4, r4) =>
                  r2 = [Ok tt; Ok tt] /\ r3 = Ok tt /\ r4 = [Ok tt; Ok tt]
                  /\ match directory_after (fun _ => None) (wd_log w4) [1%N] with
                     | Some file => read_block Debug file [PShort 2] (writer_pos wr2) (writer_pos wr3)
                                    = Ret (Ok [4; 5; 6]%N)
                     | None => False
                     end
              end
          end
      end
  | _ => False
  end.
Proof. vm_compute. repeat split; reflexivity. Qed.

(** ** C43: the position after a failed write *)

(** False: the position counts the failed block.  Here the background write of
    the first block fails, the second write reports that and writes nothing, the
    flush succeeds: the file has 1 byte, the position says 5. *)
Theorem C43_position_refuted :
  exists w f w1 wr ops w2 wr2 rs file,
    writer_new w f = (w1, Ok wr) /\ writer_run w1 wr (ops ++ [WFlush]) = (w2, wr2, rs)
    /\ directory_after (fun _ => None) (wd_log w2) f = Some file
    /\ writer_pos wr2 <> N.of_nat (length file).
Proof.
  destruct (writer_new (mkworld [] [None; Some 1] 4) [7%N]) as [w1 [wr|]] eqn:N;
    [|vm_compute in N; discriminate].
  destruct (writer_run w1 wr ([WBlock [1; 2; 3]%N; WBlock [4; 5]%N] ++ [WFlush]))
    as [[w2 wr2] rs] eqn:R.
  exists (mkworld [] [None; Some 1] 4), [7%N], w1, wr, [WBlock [1; 2; 3]%N; WBlock [4; 5]%N], w2, wr2, rs,
         [1%N].
  split; [exact N|]. split; [exact R|].
  vm_compute in N. inversion N; subst. vm_compute in R. inversion R; subst.
  split; [reflexivity|]. vm_compute. discriminate.
Qed.
Print Assumptions C43_position_refuted.

(** The consequence for a writer that carries on after an error: a later block,
    written successfully and flushed successfully, is not at its offsets. *)
Theorem C43_read_back_refuted :
  exists w f w1 wr w2 wr2 rs w3 wr3 b w4 wr4 file,
    writer_new w f = (w1, Ok wr)
    /\ writer_run w1 wr [WBlock [1; 2; 3]%N; WBlock [4; 5]%N] = (w2, wr2, rs)
    /\ writer_write_block w2 wr2 b = (w3, wr3, Ok tt)
    /\ writer_flush w3 wr3 = (w4, wr4, Ok tt)
    /\ directory_after (fun _ => None) (wd_log w4) f = Some file
    /\ read_block Debug file [] (writer_pos wr2) (writer_pos wr3) <> Ret (Ok b).
Proof.
  destruct (writer_new (mkworld [] [None; Some 1] 4) [7%N]) as [w1 [wr|]] eqn:N;
    [|vm_compute in N; discriminate].
  destruct (writer_run w1 wr [WBlock [1; 2; 3]%N; WBlock [4; 5]%N]) as [[w2 wr2] rs] eqn:R.
  destruct (writer_write_block w2 wr2 [6; 7]%N) as [[w3 wr3] r3] eqn:W.
  destruct (writer_flush w3 wr3) as [[w4 wr4] r4] eqn:F.
  exists (mkworld [] [None; Some 1] 4), [7%N], w1, wr, w2, wr2, rs, w3, wr3, [6; 7]%N, w4, wr4, [1; 6; 7]%N.
  vm_compute in N. inversion N; subst. vm_compute in R. inversion R; subst.
  vm_compute in W. inversion W; subst. vm_compute in F. inversion F; subst.
  repeat split; try reflexivity. vm_compute. discriminate.
Qed.
Print Assumptions C43_read_back_refuted.

(** What does hold for every mixture of outcomes: the position is the number of
    bytes handed to the writer, and the file never holds more.
    Missing for C43: equality, which fails as soon as a write fails. *)
Theorem C43_position_partial : forall d w f w1 wr ops w2 wr2 rs,
  0 < wd_max w ->
  writer_new w f = (w1, Ok wr) ->
  writer_run w1 wr ops = (w2, wr2, rs) ->
  writer_pos wr2 = N.of_nat (length (blocks_of ops))
  /\ exists file, directory_after d (wd_log w2) f = Some file
       /\ (N.of_nat (length file) <= writer_pos wr2)%N.
Proof.
  intros d w f w1 wr ops w2 wr2 rs M N R.
  destruct (writer_new_inv d _ _ _ _ N) as (HM & P & _ & B & P0 & H & _).
  assert (PP : writer_pos wr2 = N.of_nat (length (blocks_of ops))).
  { unfold writer_pos. rewrite (writer_pos_run _ _ _ _ _ _ R), P0. reflexivity. }
  split; [exact PP|]. rewrite PP.
  assert (G : forall ops w wr done w1 wr1 rs,
    0 < wd_max w -> tf_path (wr_file wr) = f ->
    (exists c, holds d w f c /\ length c + length (pending (wr_file wr)) <= done) ->
    writer_run w wr ops = (w1, wr1, rs) ->
    exists c, holds d w1 f c /\ length c + length (pending (wr_file wr1)) <= done + length (blocks_of ops)).
  { clear. induction ops as [|o ops IH]; intros w wr done w1 wr1 rs M P (c & H & L) R; cbn in R.
    - inversion R; subst. exists c. cbn. split; [assumption|lia].
    - destruct (writer_step w wr o) as [[w0 wr0] r] eqn:S0.
      destruct (writer_run w0 wr0 ops) as [[w2 wr2] rs2] eqn:R2. inversion R; subst w1 wr1 rs; clear R.
      assert (ST : 0 < wd_max w0 /\ tf_path (wr_file wr0) = f /\
        exists c, holds d w0 f c /\ length c + length (pending (wr_file wr0)) <= done + length (blocks_of [o])).
      { rewrite <- P in H. destruct o as [b| |]; cbn [writer_step] in S0; cbn [blocks_of].
        - unfold writer_write_block in S0. destruct (tk_write_all _ _ _ _) as [[a f1] rr] eqn:W.
          inversion S0; subst a wr0 rr; clear S0. cbn [wr_file].
          destruct (tk_write_all_spec _ _ _ _ _ _ _ _ _ W H (le_n _) M)
            as (P1 & HE & HX1 & HX2 & HO & HB1 & HB2 & (k & HK & Lk) & _).
          destruct HE as (HM & _). split; [lia|]. split; [congruence|]. rewrite P in *.
          rewrite app_nil_r.
          destruct b as [|b0 b].
          { cbn in W. inversion W; subst. exists c. cbn. split; [assumption|lia]. }
          destruct r as [[]|].
          + destruct HO as (pre & chunk & Eb & _ & _ & B1 & H1 & _); [discriminate|reflexivity|].
            exists (c ++ pending (wr_file wr) ++ pre). split; [assumption|].
            unfold pending at 2. rewrite B1, Eb, !app_length. lia.
          + destruct (tf_err (wr_file wr)) eqn:X.
            * destruct (HB2 ltac:(discriminate) eq_refl) as (B2 & ->).
              exists c. split; [assumption|]. unfold pending. rewrite B2. fold (pending (wr_file wr)). lia.
            * exists (firstn k (c ++ pending (wr_file wr) ++ b0 :: b)). split; [assumption|].
              unfold pending at 2. rewrite (HB1 eq_refl eq_refl).
              rewrite firstn_length, !app_length. cbn [length]. lia.
        - unfold writer_flush in S0. destruct (tk_flush _ _) as [[a f1] rr] eqn:W.
          inversion S0; subst a wr0 rr; clear S0. cbn [wr_file length].
          destruct (tk_flush_spec _ _ _ _ _ _ _ W H) as (P1 & HE & _ & HT & HB & _ & (k & HK) & _).
          destruct HE as (HM & _). split; [lia|]. split; [congruence|]. rewrite P in *.
          destruct (tf_err (wr_file wr)) eqn:X.
          + destruct (HT eq_refl) as (_ & B2 & ->). exists c. split; [assumption|].
            unfold pending. rewrite B2. fold (pending (wr_file wr)). lia.
          + exists (c ++ firstn k (pending (wr_file wr))). split; [assumption|].
            unfold pending at 2. rewrite (HB eq_refl). rewrite app_length, firstn_length. cbn. lia.
        - unfold writer_sync in S0. destruct (tk_sync_all _ _) as [[a f1] rr] eqn:W.
          inversion S0; subst a wr0 rr; clear S0. cbn [wr_file length].
          destruct (tk_sync_all_spec _ _ _ _ _ _ _ W H) as (P1 & HE & HS & HT & (k & HK) & _).
          destruct HE as (HM & _). split; [lia|]. split; [congruence|]. rewrite P in *.
          unfold tk_sync_all in W. destruct (tk_flush w (wr_file wr)) as [[wq fq] rq] eqn:Fq.
          destruct (tk_flush_spec _ _ _ _ _ _ _ Fq ltac:(rewrite P; exact H))
            as (P1' & HE' & _ & HT' & HB' & _ & (k' & HK') & _). rewrite P in *.
          assert (BQ : tf_busy f1 = tf_busy fq).
          { destruct (next_fate wq) as [[?|] ?]; inversion W; subst; destruct rq; reflexivity. }
          assert (DQ : forall cc, holds d wq f cc -> holds d w0 f cc).
          { intros cc Hc. destruct (next_fate wq) as [[?|] wz] eqn:NF; inversion W; subst.
            - eapply holds_next; eassumption.
            - apply holds_sync. eapply holds_next; eassumption. }
          destruct (tf_err (wr_file wr)) eqn:X.
          + destruct (HT' eq_refl) as (_ & B2 & ->). exists c. split; [auto|].
            unfold pending. rewrite BQ, B2. fold (pending (wr_file wr)). lia.
          + exists (c ++ firstn k' (pending (wr_file wr))). split; [auto|].
            unfold pending at 2. rewrite BQ, (HB' eq_refl). rewrite app_length, firstn_length. cbn. lia. }
      destruct ST as (M0 & P0 & C0).
      destruct (IH _ _ _ _ _ _ M0 P0 C0 R2) as (c2 & H2 & L2). exists c2. split; [assumption|].
      replace (blocks_of (o :: ops)) with (blocks_of [o] ++ blocks_of ops) by (rewrite <- blocks_of_app; reflexivity).
      rewrite app_length. lia. }
  destruct (G ops w1 wr 0 w2 wr2 rs) as (c & Hc & Lc); [lia|exact P| |exact R|].
  - exists []. split; [exact H|]. unfold pending. rewrite B. cbn. lia.
  - exists c. split; [exact Hc|]. lia.
Qed.
Print Assumptions C43_position_partial.

(** C39: even without the flush, only bytes still in flight can be missing, and at
    most one chunk of them. *)
Theorem C39_before_flush : forall d w f w1 wr blocks w2 wr2 rs,
  0 < wd_max w ->
  writer_new w f = (w1, Ok wr) ->
  writer_run w1 wr (map WBlock blocks) = (w2, wr2, rs) ->
  Forall (fun r => r = Ok tt) rs ->
  exists in_file tail, concat blocks = in_file ++ tail /\ length tail <= wd_max w
    /\ directory_after d (wd_log w2) f = Some in_file.
Proof.
  intros d w f w1 wr blocks w2 wr2 rs M N. revert w2 wr2 rs.
  assert (EB : forall bs, blocks_of (map WBlock bs) = concat bs).
  { induction bs as [|x bs IH]; [reflexivity|]. cbn. rewrite IH. reflexivity. }
  induction blocks as [|b blocks IH] using rev_ind; intros w2 wr2 rs R K.
  - cbn in R. injection R as <- <- <-. exists [], []. split; [reflexivity|]. split; [cbn; lia|].
    destruct (C43_position_partial d w f w1 wr [] w1 wr [] M N eq_refl) as (P & file & D & L). cbn in P. rewrite P in L. destruct file; [exact D|cbn in L; lia].
  - rewrite map_app in R. cbn [map] in R. destruct b as [|x b].
    + rewrite writer_run_app in R. destruct (writer_run w1 wr (map WBlock blocks)) as [[w3 wr3] r3] eqn:R3. cbn in R. injection R as <- <- <-.
      apply Forall_app in K. destruct K as [K _]. destruct (IH _ _ _ eq_refl K) as (a & t & E & L & D).
      exists a, t. rewrite concat_app. cbn [concat]. rewrite !app_nil_r. auto.
    + destruct (C44_next_write_vouches d w f w1 wr (map WBlock blocks) (x :: b) w2 wr2 rs M N ltac:(discriminate) R)
        as (written & tail & Eb & L & D).
      { pose proof (writer_run_length _ _ _ _ _ _ R) as L. clear -K L. revert rs K L.
        generalize (map WBlock blocks ++ [WBlock (x :: b)]) as os.
        induction os as [|o os IH]; intros [|r rs] K L; try discriminate; [constructor|].
        apply Forall_cons_iff in K. destruct K as [-> K]. constructor; [auto|]. apply IH; auto. }
      exists (concat blocks ++ written), tail. rewrite EB in D.
      split; [rewrite concat_app; cbn [concat]; rewrite app_nil_r, Eb, app_assoc; reflexivity|]. auto.
Qed.
Print Assumptions C39_before_flush.
