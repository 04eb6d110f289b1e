(** Facts about the block writer model. *)
From Verif Require Import Base Io SpecIo.
Open Scope nat_scope.

Lemma directory_after_app : forall l1 l2 d,
  directory_after d (l1 ++ l2) = directory_after (directory_after d l1) l2.
Proof. intros. unfold directory_after. apply fold_left_app. Qed.

(** ** Which files an effect is about *)

Definition event_path (e : fs_event) : path :=
  match e with FCreate f => f | FAppend f _ => f | FSync f => f end.

Lemma directory_after_other : forall log d f,
  Forall (fun e => event_path e <> f) log -> directory_after d log f = d f.
Proof.
  induction log as [|e log IH]; intros d f H; [reflexivity|].
  apply Forall_cons_iff in H. destruct H as [He H].
  cbn [directory_after fold_left]. fold (directory_after (apply_effect d e) log).
  rewrite IH by assumption.
  destruct e as [g|g bs|g]; cbn in *; try reflexivity;
    (destruct (path_dec f g) as [->|_]; [congruence|reflexivity]).
Qed.

(** [w2] extends [w1] by effects on [f] that only append or sync. *)
Definition extends (f : path) (w1 w2 : world) : Prop :=
  wd_max w2 = wd_max w1
  /\ exists more, wd_log w2 = wd_log w1 ++ more
       /\ Forall (fun e => event_path e = f /\ e <> FCreate f) more
       /\ exists gone, wd_plan w1 = gone ++ wd_plan w2.

Lemma extends_refl : forall f w, extends f w w.
Proof.
  intros. split; [reflexivity|]. exists []. rewrite app_nil_r.
  split; [reflexivity|]. split; [constructor|]. exists []. reflexivity.
Qed.

Lemma extends_trans : forall f a b c, extends f a b -> extends f b c -> extends f a c.
Proof.
  intros f a b c (M1 & m1 & L1 & F1 & g1 & G1) (M2 & m2 & L2 & F2 & g2 & G2).
  split; [congruence|]. exists (m1 ++ m2). rewrite L2, L1, app_assoc.
  split; [reflexivity|]. split; [apply Forall_app; split; assumption|].
  exists (g1 ++ g2). rewrite G1, G2, app_assoc. reflexivity.
Qed.

Lemma next_fate_inv : forall w fate w1,
  next_fate w = (fate, w1) ->
  wd_log w1 = wd_log w /\ wd_max w1 = wd_max w
  /\ (exists gone, wd_plan w = gone ++ wd_plan w1 /\ Forall (fun x => x = fate) gone)
  /\ (all_succeed w -> fate = None).
Proof.
  intros w fate w1 E. unfold next_fate in E. unfold all_succeed.
  destruct (wd_plan w) as [|x rest] eqn:P; inversion E; subst; cbn.
  - rewrite P. repeat split; auto. exists []. split; [reflexivity|constructor].
  - repeat split; auto.
    + exists [fate]. split; [reflexivity|repeat constructor].
    + intros H. apply Forall_cons_iff in H. tauto.
Qed.

Lemma all_succeed_extends : forall f w1 w2, extends f w1 w2 -> all_succeed w1 -> all_succeed w2.
Proof.
  intros f w1 w2 (_ & m & _ & _ & g & G) H. unfold all_succeed in *. rewrite G in H.
  apply Forall_app in H. tauto.
Qed.

Lemma effect_extends : forall f w e,
  event_path e = f -> e <> FCreate f -> extends f w (effect w e).
Proof.
  intros f w e Hp Hc. split; [reflexivity|]. exists [e]. split; [reflexivity|].
  split; [repeat constructor; assumption|]. exists []. reflexivity.
Qed.

Lemma next_fate_extends : forall f w fate w1, next_fate w = (fate, w1) -> extends f w w1.
Proof.
  intros f w fate w1 E. destruct (next_fate_inv _ _ _ E) as (HL & HM & (g & G & _) & _).
  split; [assumption|]. exists []. rewrite HL, app_nil_r.
  split; [reflexivity|]. split; [constructor|]. exists g. assumption.
Qed.

(** ** Waiting for the chunk in flight *)

Definition pending (f : tfile) : list N := match tf_busy f with Some c => c | None => [] end.

(** The bytes in file [f] when it exists. *)
Definition holds (d : directory) (w : world) (f : path) (c : list N) : Prop :=
  directory_after d (wd_log w) f = Some c.

Lemma holds_append : forall d w f c bs,
  holds d w f c -> holds d (effect w (FAppend f bs)) f (c ++ bs).
Proof.
  intros d w f c bs H. unfold holds in *. cbn [effect wd_log]. rewrite directory_after_app. cbn [directory_after fold_left apply_effect].
  destruct (path_dec f f) as [_|n]; [|congruence]. rewrite H. reflexivity.
Qed.

Lemma holds_sync : forall d w f g c, holds d w f c -> holds d (effect w (FSync g)) f c.
Proof.
  intros d w f g c H. unfold holds in *. cbn [effect wd_log]. rewrite directory_after_app. cbn [directory_after fold_left apply_effect]. exact H.
Qed.

Lemma holds_next : forall d w f c fate w1,
  next_fate w = (fate, w1) -> holds d w f c -> holds d w1 f c.
Proof.
  intros d w f c fate w1 E H. destruct (next_fate_inv _ _ _ E) as (HL & _).
  unfold holds in *. rewrite HL. exact H.
Qed.

Lemma tk_wait_spec : forall d w f c w1 f1 r,
  tk_wait w f = (w1, f1, r) -> holds d w (tf_path f) c ->
  tf_path f1 = tf_path f /\ tf_busy f1 = None /\ tf_err f1 = tf_err f
  /\ extends (tf_path f) w w1
  /\ (exists k, holds d w1 (tf_path f) (c ++ firstn k (pending f)))
  /\ (r = Ok tt -> holds d w1 (tf_path f) (c ++ pending f))
  /\ (all_succeed w -> r = Ok tt).
Proof.
  intros d w f c w1 f1 r E H. unfold tk_wait, tk_background in E. unfold pending.
  destruct (tf_busy f) as [chunk|] eqn:B.
  - destruct (next_fate w) as [fate w0] eqn:NF.
    pose proof (next_fate_inv _ _ _ NF) as (_ & _ & _ & HS).
    pose proof (next_fate_extends (tf_path f) _ _ _ NF) as HE.
    pose proof (holds_next _ _ _ _ _ _ NF H) as H0.
    destruct fate as [k|]; inversion E; subst; cbn; repeat (split; [reflexivity|]).
    + split; [eapply extends_trans; [exact HE|]; apply effect_extends; [reflexivity|discriminate]|].
      split; [exists k; apply holds_append; assumption|].
      split; [discriminate|]. intros A. specialize (HS A). discriminate.
    + split; [eapply extends_trans; [exact HE|]; apply effect_extends; [reflexivity|discriminate]|].
      split; [exists (length chunk); rewrite firstn_all; apply holds_append; assumption|].
      split; [intros _; apply holds_append; assumption|]. reflexivity.
  - inversion E; subst. rewrite app_nil_r.
    split; [reflexivity|]. split; [assumption|]. split; [reflexivity|].
    split; [apply extends_refl|]. split; [exists 0; cbn; rewrite app_nil_r; assumption|]. auto.
Qed.

Lemma tk_write_spec : forall d w f c src w1 f1 r,
  tk_write w f src = (w1, f1, r) -> holds d w (tf_path f) c ->
  tf_path f1 = tf_path f /\ extends (tf_path f) w w1 /\ (r <> Err -> tf_err f = false)
  /\ (tf_err f = false -> tf_err f1 = false)
  /\ (tf_err f = true -> r = Err /\ tf_busy f1 = tf_busy f /\ w1 = w)
  /\ (exists k, holds d w1 (tf_path f) (c ++ firstn k (pending f)))
  /\ (r = Err -> tf_err f = false -> tf_busy f1 = None)
  /\ (forall n, r = Ok n -> holds d w1 (tf_path f) (c ++ pending f)
                            /\ tf_busy f1 = Some (firstn (wd_max w) src)
                            /\ n = length (firstn (wd_max w) src))
  /\ (all_succeed w -> tf_err f = false -> r <> Err).
Proof.
  intros d w f c src w1 f1 r E H. unfold tk_write in E.
  destruct (tf_err f) eqn:X.
  - inversion E; subst; cbn.
    split; [reflexivity|]. split; [apply extends_refl|]. split; [congruence|].
    split; [auto|]. split; [auto|].
    split; [exists 0; cbn; rewrite app_nil_r; assumption|].
    split; [discriminate|]. split; [discriminate|]. discriminate.
  - destruct (tk_wait w f) as [[w0 f0] r0] eqn:W.
    destruct (tk_wait_spec _ _ _ _ _ _ _ W H) as (P & B & Xe & HE & HK & HO & HA).
    destruct r0 as [[]|]; inversion E; subst; cbn.
    + split; [assumption|]. split; [assumption|]. split; [reflexivity|].
      split; [congruence|]. split; [discriminate|]. split; [assumption|].
      split; [discriminate|].
      split; [|discriminate].
      intros n En. inversion En; subst. destruct HE as (HM & _). rewrite HM.
      split; [apply HO; reflexivity|]. split; reflexivity.
    + split; [assumption|]. split; [assumption|]. split; [congruence|].
      split; [congruence|]. split; [discriminate|]. split; [assumption|].
      split; [auto|]. split; [discriminate|].
      intros A _. specialize (HA A). discriminate.
Qed.

(** [write_all]: on success everything earlier is in the file, together with all
    of the new bytes but the last chunk, which is in flight. *)
Lemma tk_write_all_spec : forall fuel d w f c src w1 f1 r,
  tk_write_all fuel w f src = (w1, f1, r) -> holds d w (tf_path f) c ->
  length src <= fuel -> 0 < wd_max w ->
  tf_path f1 = tf_path f /\ extends (tf_path f) w w1
  /\ (tf_err f = false -> tf_err f1 = false)
  /\ (src <> [] -> tf_err f = true -> r = Err)
  /\ (src <> [] -> r = Ok tt ->
        exists pre chunk, src = pre ++ chunk /\ chunk <> [] /\ length chunk <= wd_max w
          /\ tf_busy f1 = Some chunk /\ holds d w1 (tf_path f) (c ++ pending f ++ pre)
          /\ length pre mod wd_max w = 0)
  /\ (r = Err -> tf_err f = false -> tf_busy f1 = None)
  /\ (src <> [] -> tf_err f = true -> tf_busy f1 = tf_busy f /\ w1 = w)
  /\ (exists k, holds d w1 (tf_path f) (firstn k (c ++ pending f ++ src)) /\ length c <= k)
  /\ (all_succeed w -> tf_err f = false -> r = Ok tt).
Proof.
  induction fuel as [|fuel IH]; intros d w f c src w1 f1 r E H L M.
  - destruct src as [|s src]; [|cbn in L; lia]. inversion E; subst.
    repeat split; auto; try apply extends_refl; try congruence.
    exists (length c). split; [|lia]. rewrite firstn_app, firstn_all, Nat.sub_diag.
    rewrite firstn_O, app_nil_r. assumption.
  - destruct src as [|s src].
    + inversion E; subst. repeat split; auto; try apply extends_refl; try congruence.
      exists (length c). split; [|lia]. rewrite firstn_app, firstn_all, Nat.sub_diag.
      rewrite firstn_O, app_nil_r. assumption.
    + remember (s :: src) as all eqn:Eall. assert (NE : all <> []) by (subst; discriminate).
      cbn [tk_write_all] in E. rewrite Eall in E. rewrite <- Eall in E.
      destruct (tk_write w f all) as [[w0 f0] r0] eqn:W.
      destruct (tk_write_spec _ _ _ _ _ _ _ _ W H)
        as (P & HE & HX & HXf & HXt & (k & HK) & HErr & HO & HA).
      destruct r0 as [n|].
      * destruct (HO n eq_refl) as (HH & HB & Hn).
        assert (Ln : n = Nat.min (wd_max w) (length all)) by (rewrite Hn; apply firstn_length).
        assert (La : 0 < length all) by (subst all; cbn; lia).
        assert (Hfn : firstn (wd_max w) all = firstn n all).
        { rewrite Ln. destruct (le_lt_dec (wd_max w) (length all)).
          - f_equal. lia.
          - rewrite !firstn_all2 by lia. reflexivity. }
        assert (NZ : (n =? 0) = false) by (apply Nat.eqb_neq; lia). rewrite NZ in E.
        assert (Xf : tf_err f = false) by (apply HX; discriminate).
        rewrite <- P in HH.
        assert (M0 : wd_max w0 = wd_max w) by (destruct HE; assumption).
        destruct (IH d w0 f0 _ _ _ _ _ E HH)
          as (P1 & HE1 & HX1 & HX2 & HO1 & HB1 & HB2 & HK1 & HA1).
        { rewrite skipn_length. lia. }
        { lia. }
        rewrite P in *. split; [congruence|].
        split; [eapply extends_trans; eassumption|].
        split; [auto|]. split; [congruence|].
        split.
        { intros _ Er. destruct (le_lt_dec (length all) (wd_max w)) as [Le|Gt].
          - rewrite skipn_all2 in E by lia.
            destruct fuel; cbn in E; inversion E; subst w1 f1 r.
            + exists [], all. rewrite firstn_all2 in HB by lia.
              repeat split; auto. rewrite app_nil_r. assumption.
              apply Nat.mod_0_l. lia.
            + exists [], all. rewrite firstn_all2 in HB by lia.
              repeat split; auto. rewrite app_nil_r. assumption.
              apply Nat.mod_0_l. lia.
          - destruct HO1 as (pre & chunk & Es & NEc & Lc & Bc & Hc & Mc).
            { intros Z. apply (f_equal (@length _)) in Z. rewrite skipn_length in Z. cbn in Z. lia. }
            { assumption. }
            exists (firstn n all ++ pre), chunk.
            split; [rewrite <- app_assoc, <- Es; symmetry; apply firstn_skipn|].
            split; [assumption|]. split; [lia|]. split; [assumption|].
            split.
            + unfold pending in Hc at 2. rewrite HB in Hc.
              rewrite Hfn in Hc. rewrite <- !app_assoc in Hc. exact Hc.
            + rewrite app_length, firstn_length, M0 in *.
              replace (Nat.min n (length all)) with (wd_max w) by lia.
              rewrite <- (Nat.mul_1_l (wd_max w)) at 1.
              rewrite Nat.add_comm, Nat.mod_add by lia. exact Mc. }
        split; [auto|]. split; [congruence|].
        split.
        { destruct HK1 as (k1 & HK1 & Lk1). exists k1. split.
          - unfold pending in HK1 at 2. rewrite HB in HK1.
            rewrite Hfn, firstn_skipn in HK1. rewrite <- app_assoc in HK1. exact HK1.
          - rewrite app_length in Lk1. lia. }
        { intros A _. apply HA1; [eapply all_succeed_extends; eassumption|]. auto. }
      * inversion E; subst w1 f1 r.
        split; [assumption|]. split; [assumption|]. split; [assumption|].
        split; [auto|]. split; [discriminate|]. split; [auto|].
        split; [intros _ T; destruct (HXt T) as (_ & ? & ?); auto|].
        split.
        { exists (length c + Nat.min k (length (pending f))). split; [|lia].
          rewrite firstn_app.
          rewrite firstn_all2 by lia.
          replace (length c + Nat.min k (length (pending f)) - length c)
            with (Nat.min k (length (pending f))) by lia.
          rewrite firstn_app.
          replace (Nat.min k (length (pending f)) - length (pending f)) with 0 by lia.
          rewrite firstn_O, app_nil_r.
          replace (firstn (Nat.min k (length (pending f))) (pending f))
            with (firstn k (pending f)); [exact HK|].
          destruct (le_lt_dec k (length (pending f))).
          - f_equal. lia.
          - rewrite !firstn_all2 by lia. reflexivity. }
        { intros A X. destruct (HA A X eq_refl). }
Qed.

Lemma tk_flush_spec : forall d w f c w1 f1 r,
  tk_flush w f = (w1, f1, r) -> holds d w (tf_path f) c ->
  tf_path f1 = tf_path f /\ extends (tf_path f) w w1
  /\ tf_err f1 = false
  /\ (tf_err f = true -> r = Err /\ tf_busy f1 = tf_busy f /\ w1 = w)
  /\ (tf_err f = false -> tf_busy f1 = None)
  /\ (r = Ok tt -> holds d w1 (tf_path f) (c ++ pending f) /\ tf_err f = false)
  /\ (exists k, holds d w1 (tf_path f) (c ++ firstn k (pending f)))
  /\ (all_succeed w -> tf_err f = false -> r = Ok tt).
Proof.
  intros d w f c w1 f1 r E H. unfold tk_flush in E. destruct (tf_err f) eqn:X.
  - inversion E; subst; cbn. repeat split; auto; try apply extends_refl; try discriminate.
    exists 0. cbn. rewrite app_nil_r. assumption.
  - destruct (tk_wait_spec _ _ _ _ _ _ _ E H) as (P & B & Xe & HE & HK & HO & HA).
    split; [assumption|]. split; [assumption|]. split; [congruence|].
    split; [discriminate|]. split; [auto|]. split; [intros ->; auto|]. split; auto.
Qed.

Lemma tk_sync_all_spec : forall d w f c w1 f1 r,
  tk_sync_all w f = (w1, f1, r) -> holds d w (tf_path f) c ->
  tf_path f1 = tf_path f /\ extends (tf_path f) w w1
  /\ (tf_err f1 = true \/ (tf_err f = false /\ tf_busy f1 = None
                            /\ holds d w1 (tf_path f) (c ++ pending f)))
  /\ (tf_err f = true -> tf_busy f1 = tf_busy f)
  /\ (exists k, holds d w1 (tf_path f) (c ++ firstn k (pending f)))
  /\ (all_succeed w -> tf_err f = false -> tf_err f1 = false /\ r = Ok tt).
Proof.
  intros d w f c w1 f1 r E H. unfold tk_sync_all in E.
  destruct (tk_flush w f) as [[w0 f0] r0] eqn:F.
  destruct (tk_flush_spec _ _ _ _ _ _ _ F H) as (P & HE & Xe & HT & HB & HO & (k & HK) & HA).
  destruct (next_fate w0) as [fate w2] eqn:NF.
  pose proof (next_fate_inv _ _ _ NF) as (_ & _ & _ & HS).
  pose proof (next_fate_extends (tf_path f) _ _ _ NF) as HE2.
  set (f2 := match r0 with Ok _ => f0 | Err => mktfile (tf_path f0) (tf_busy f0) true end) in *.
  assert (P2 : tf_path f2 = tf_path f) by (unfold f2; destruct r0; cbn; assumption).
  assert (X : tf_err f2 = true \/ (tf_err f = false /\ tf_busy f2 = None
              /\ holds d w2 (tf_path f) (c ++ pending f))).
  { unfold f2. destruct r0 as [[]|]; [right|left; reflexivity].
    destruct (HO eq_refl) as [HH Xf]. split; [assumption|]. split; [auto|].
    eapply holds_next; eassumption. }
  assert (BT : tf_err f = true -> tf_busy f2 = tf_busy f).
  { intros T. destruct (HT T) as (-> & B & _). unfold f2. exact B. }
  assert (K2 : holds d w2 (tf_path f) (c ++ firstn k (pending f))) by (eapply holds_next; eassumption).
  assert (E2 : extends (tf_path f) w w2) by (eapply extends_trans; eassumption).
  assert (A2 : all_succeed w -> tf_err f = false -> tf_err f2 = false).
  { intros A Xf. unfold f2. rewrite (HA A Xf). exact Xe. }
  destruct fate as [kk|]; inversion E; subst w1 f1 r.
  - split; [assumption|]. split; [assumption|]. split; [assumption|]. split; [assumption|].
    split; [exists k; assumption|].
    intros A Xf. assert (all_succeed w0) as A0 by (eapply all_succeed_extends; eassumption).
    specialize (HS A0). discriminate.
  - split; [assumption|].
    split.
    { eapply extends_trans; [exact E2|]. apply effect_extends; [exact P2|discriminate]. }
    split.
    { destruct X as [X|(X1 & X2 & X3)]; [left; assumption|right].
      split; [assumption|]. split; [assumption|]. apply holds_sync. assumption. }
    split; [assumption|].
    split; [exists k; apply holds_sync; assumption|].
    intros A Xf. split; [auto|reflexivity].
Qed.
