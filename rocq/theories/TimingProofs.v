(** Lemmas on Timing.v: whatever the schedule, there is a plan of failures with
    which Io.v does the same. *)
From Verif Require Import Base BaseProofs Io Cancel SpecIo IoProofs Timing.
Open Scope nat_scope.

(** What happened to one file. *)
Definition events (f : path) (log : list fs_event) : list fs_event :=
  filter (fun e => if path_dec f (event_path e) then true else false) log.

Lemma events_app f a b : events f (a ++ b) = events f a ++ events f b.
Proof. apply filter_app. Qed.

Lemma events_other f g (es : list fs_event) : Forall (fun e => event_path e = g) es -> f <> g -> events f es = [].
Proof.
  intros F NE. induction F as [|e es E F IH]; [reflexivity|]. unfold events in *. cbn [filter]. destruct (path_dec f (event_path e)); [congruence|exact IH].
Qed.

Lemma events_own f (es : list fs_event) : Forall (fun e => event_path e = f) es -> events f es = es.
Proof.
  intros F. induction F as [|e es E F IH]; [reflexivity|]. unfold events in *. cbn [filter]. destruct (path_dec f (event_path e)); [rewrite IH; reflexivity|congruence].
Qed.

Definition cut_at (fate : option nat) (chunk : list N) : list N := match fate with None => chunk | Some k => firstn k chunk end.
Definition told (fate : option nat) : result unit := match fate with None => Ok tt | Some _ => Err end.

Lemma background_cut w f chunk : tk_background w f chunk = (effect (snd (next_fate w)) (FAppend f (cut_at (fst (next_fate w)) chunk)), told (fst (next_fate w))).
Proof. unfold tk_background. destruct (next_fate w) as [[k|] w1]; reflexivity. Qed.

Section Sim.
Variable Q : option nat -> Prop.
Hypothesis QN : Q None.
Variable max : nat.

Lemma fate_ok w : Forall Q (wd_plan w) -> Q (fst (next_fate w)) /\ Forall Q (wd_plan (snd (next_fate w)))
  /\ wd_log (snd (next_fate w)) = wd_log w /\ wd_max (snd (next_fate w)) = wd_max w.
Proof.
  intros F. unfold next_fate. destruct (wd_plan w) as [|x l] eqn:E; cbn [fst snd wd_plan wd_log wd_max]; [rewrite E; auto|].
  apply Forall_cons_iff in F. destruct F. auto.
Qed.

Lemma fate_of L x rest : next_fate (mkworld L (x :: rest) max) = (x, mkworld L rest max).
Proof. reflexivity. Qed.

(** One file: the same, but that the write in flight may have happened. *)
Definition same1 (Le Ll : list fs_event) (f : bfile) (t : writer) : Prop :=
  tf_path (wr_file t) = bf_path f /\ tf_err (wr_file t) = bf_err f /\ wr_pos t = bf_pos f
  /\ (bf_err f = true -> bf_busy f = None)
  /\ match bf_busy f with
     | None => tf_busy (wr_file t) = None /\ events (bf_path f) Le = events (bf_path f) Ll
     | Some (ch, None) => tf_busy (wr_file t) = Some ch /\ events (bf_path f) Le = events (bf_path f) Ll
     | Some (ch, Some r) => tf_busy (wr_file t) = Some ch
         /\ exists fate, Q fate /\ r = told fate /\ events (bf_path f) Le = events (bf_path f) Ll ++ [FAppend (bf_path f) (cut_at fate ch)]
     end.

Record agree (st : bfiles) (L : list fs_event) (ws : nat -> option writer) (names : list path) : Prop := mkagree {
  ag_max : wd_max (bs_os st) = max;
  ag_plan : Forall Q (wd_plan (bs_os st));
  ag_names : bs_names st = names;
  ag_file : forall i, match bs_file st i, ws i with
                      | Some f, Some t => same1 (wd_log (bs_os st)) L f t /\ In (bf_path f) names
                      | None, None => True
                      | _, _ => False
                      end;
  ag_paths : forall i j f g, i <> j -> bs_file st i = Some f -> bs_file st j = Some g -> bf_path f <> bf_path g;
  ag_rest : forall p, (forall i f, bs_file st i = Some f -> bf_path f <> p) -> events p (wd_log (bs_os st)) = events p L }.

(** One file and its events change. *)
Lemma agree_change st L ws names i f t w E E' f' t' ws' timing : agree st L ws names -> bs_file st i = Some f -> ws i = Some t ->
  wd_max w = max -> Forall Q (wd_plan w) -> wd_log w = wd_log (bs_os st) ++ E ->
  Forall (fun e => event_path e = bf_path f) E -> Forall (fun e => event_path e = bf_path f) E' ->
  bf_path f' = bf_path f -> same1 (wd_log w) (L ++ E') f' t' -> (forall j, ws' j = set_at ws i t' j) ->
  agree (mkbfiles w (set_at (bs_file st) i f') (bs_names st) timing) (L ++ E') ws' names.
Proof.
  intros [AM AP AN AF AD AR] HF HT WM WP WL FE FE' PF SM WS. pose proof (AF i) as AI. rewrite HF, HT in AI. destruct AI as [_ IN].
  assert (OTH : forall g, g <> bf_path f -> events g (wd_log (bs_os st)) = events g (wd_log w) /\ events g (L ++ E') = events g L).
  { intros g NE. rewrite WL, !events_app, (events_other _ _ _ FE NE), (events_other _ _ _ FE' NE), !app_nil_r. auto. }
  split; cbn [bs_os bs_file bs_names bs_timing]; [exact WM|exact WP|exact AN| | |].
  - intros j. rewrite WS. unfold set_at. destruct (Nat.eqb_spec j i) as [->|NE]; [split; [exact SM|rewrite PF; exact IN]|].
    specialize (AF j). destruct (bs_file st j) as [g|] eqn:HG; [|exact AF]. destruct (ws j) as [u|]; [|exact AF]. destruct AF as [(S1 & S2 & S3 & S0 & S4) S5]. split; [|exact S5].
    split; [exact S1|]. split; [exact S2|]. split; [exact S3|]. split; [exact S0|]. destruct (OTH (bf_path g) (AD _ _ _ _ NE HG HF)) as [O1 O2].
    destruct (bf_busy g) as [[ch [r|]]|]; rewrite <- O1, O2; exact S4.
  - intros j k g h NE HG HH. unfold set_at in HG, HH. destruct (Nat.eqb_spec j i) as [->|NJ], (Nat.eqb_spec k i) as [->|NK]; try congruence.
    + injection HG as <-. rewrite PF. exact (AD _ _ _ _ NE HF HH).
    + injection HH as <-. rewrite PF. exact (AD _ _ _ _ NE HG HF).
    + exact (AD _ _ _ _ NE HG HH).
  - intros p NP. assert (NE : p <> bf_path f).
    { intros ->. apply (NP i f'); [unfold set_at; rewrite Nat.eqb_refl; reflexivity|exact PF]. }
    destruct (OTH p NE) as [O1 O2]. rewrite <- O1, O2. apply AR. intros j g HG. destruct (Nat.eq_dec j i) as [->|NJ]; [congruence|].
    apply (NP j g). unfold set_at. destruct (Nat.eqb_spec j i); [contradiction|exact HG].
Qed.

Lemma agree_ext st L ws ws' names : agree st L ws names -> (forall j, ws' j = ws j) -> agree st L ws' names.
Proof. intros [AM AP AN AF AD AR] E. split; auto. intros i. rewrite E. apply AF. Qed.

Lemma agree_timing st L ws names timing : agree st L ws names -> agree (mkbfiles (bs_os st) (bs_file st) (bs_names st) timing) L ws names.
Proof. intros [AM AP AN AF AD AR]. split; auto. Qed.

Lemma set_same {A} (g : nat -> option A) i x : g i = Some x -> forall j, g j = set_at g i x j.
Proof. intros H j. unfold set_at. destruct (Nat.eqb_spec j i) as [->|]; auto. Qed.

Lemma set_twice {A} (g : nat -> option A) i x y j : set_at (set_at g i x) i y j = set_at g i y j.
Proof. unfold set_at. destruct (j =? i); reflexivity. Qed.

Lemma set_eq {A} (g : nat -> option A) i x : set_at g i x i = Some x.
Proof. unfold set_at. rewrite Nat.eqb_refl. reflexivity. Qed.

(** A background write is not noticed. *)
Lemma perform_agree st L ws names i : agree st L ws names -> agree (bg_perform st i) L ws names.
Proof.
  intros A. unfold bg_perform. destruct (bs_file st i) as [[p [[ch [r|]]|] err pos]|] eqn:HF; try exact A.
  rewrite background_cut. pose proof (fate_ok _ (ag_plan _ _ _ _ A)) as (Q1 & Q2 & Q3 & Q4).
  pose proof (ag_file _ _ _ _ A i) as AI. rewrite HF in AI. destruct (ws i) as [t|] eqn:HT; [|contradiction]. destruct AI as [(S1 & S2 & S3 & S0 & S4 & S5) _]. cbn [bf_path bf_err bf_pos bf_busy] in *.
  rewrite <- (app_nil_r L). refine (agree_change st L ws names i _ t _ [FAppend p (cut_at (fst (next_fate (bs_os st))) ch)] [] _ t ws _ A HF HT _ _ _ _ _ _ _ _).
  - cbn [effect wd_max]. rewrite Q4. exact (ag_max _ _ _ _ A).
  - exact Q2.
  - cbn [effect wd_log]. rewrite Q3. reflexivity.
  - repeat constructor.
  - constructor.
  - reflexivity.
  - split; [exact S1|]. split; [exact S2|]. split; [exact S3|]. cbn [bf_busy bf_path bf_err]. split; [intros X; specialize (S0 X); discriminate S0|]. split; [exact S4|]. exists (fst (next_fate (bs_os st))). split; [exact Q1|]. split; [reflexivity|].
    cbn [effect wd_log]. rewrite Q3, app_nil_r, events_app, S5. f_equal. apply events_own. repeat constructor.
  - apply set_same. exact HT.
Qed.

Lemma tick_agree st L ws names : agree st L ws names -> agree (bg_tick st) L ws names.
Proof.
  intros A. unfold bg_tick. destruct (bs_timing st) as [|now later]; [exact A|].
  apply (agree_timing _ _ _ _ later) in A. revert A. generalize (mkbfiles (bs_os st) (bs_file st) (bs_names st) later) as s. clear st.
  induction now as [|i now IH]; intros s A; cbn [fold_left]; [exact A|]. apply IH. apply perform_agree. exact A.
Qed.

(** Which files there are does not depend on the background. *)
Lemma agree_some st L ws names i t : agree st L ws names -> ws i = Some t -> exists f, bs_file st i = Some f /\ same1 (wd_log (bs_os st)) L f t.
Proof. intros A H. pose proof (ag_file _ _ _ _ A i) as X. rewrite H in X. destruct (bs_file st i) as [f|]; [|contradiction]. exists f. split; [reflexivity|exact (proj1 X)]. Qed.

Lemma wait_agree st L ws names i t st1 r : agree st L ws names -> ws i = Some t -> bg_wait st i = (st1, r) ->
  exists used L1 t1, Forall Q used /\ (forall rest, tk_wait (mkworld L (used ++ rest) max) (wr_file t) = (mkworld L1 rest max, t1, r))
    /\ tf_path t1 = tf_path (wr_file t) /\ tf_err t1 = tf_err (wr_file t) /\ tf_busy t1 = None
    /\ agree st1 L1 (set_at ws i (mkwriter t1 (wr_pos t))) names.
Proof.
  intros A HT H. unfold bg_wait in H. apply (perform_agree _ _ _ _ i) in A. remember (bg_perform st i) as s eqn:Es.
  destruct (agree_some _ _ _ _ _ _ A HT) as (f & HF & SM). rewrite HF in H. destruct f as [p busy err pos]. destruct SM as (S1 & S2 & S3 & S0 & S4). cbn [bf_path bf_err bf_pos bf_busy] in *.
  destruct busy as [[ch [r0|]]|].
  - injection H as <- <-. destruct S4 as (S4 & fate & QF & -> & S5). exists [fate], (L ++ [FAppend p (cut_at fate ch)]), (mktfile p None err).
    split; [repeat constructor; exact QF|]. split.
    { intros rest. cbn [app]. unfold tk_wait. rewrite S4, background_cut, fate_of. cbn [fst snd effect wd_log wd_plan wd_max]. rewrite S1, S2. reflexivity. }
    cbn [tf_path tf_err tf_busy]. split; [congruence|]. split; [congruence|]. split; [reflexivity|].
    refine (agree_change s L ws names i _ t _ [] [FAppend p (cut_at fate ch)] _ (mkwriter (mktfile p None err) (wr_pos t)) _ _ A HF HT _ _ _ _ _ _ _ _).
    + exact (ag_max _ _ _ _ A).
    + exact (ag_plan _ _ _ _ A).
    + rewrite app_nil_r. reflexivity.
    + constructor.
    + repeat constructor.
    + reflexivity.
    + split; [reflexivity|]. split; [reflexivity|]. split; [exact S3|]. split; [reflexivity|]. cbn [bf_busy bf_path wr_file tf_busy]. split; [reflexivity|]. rewrite S5, events_app. f_equal. symmetry. apply events_own. repeat constructor.
    + reflexivity.
  - (* performed, so not pending *)
    exfalso. unfold bg_perform in Es. destruct (bs_file st i) as [[p0 [[ch0 [r0|]]|] err0 pos0]|] eqn:HF0; try (subst s; rewrite HF0 in HF; congruence).
    destruct (tk_background _ _ _) as [w0 r0]. subst s. unfold put in HF. cbn [bs_file] in HF. rewrite set_eq in HF. congruence.
  - injection H as <- <-. exists [], L, (wr_file t). split; [constructor|]. split; [intros rest; unfold tk_wait; destruct S4 as [S4 _]; rewrite S4; reflexivity|].
    split; [reflexivity|]. split; [reflexivity|]. split; [apply S4|]. eapply agree_ext; [exact A|]. intros j. destruct t as [tf tp]. symmetry. apply (set_same _ _ _ HT).
Qed.

Lemma settle_agree st L ws names i t st1 r : agree st L ws names -> ws i = Some t -> bg_settle st i = (st1, r) ->
  exists used L1 t1, Forall Q used /\ (forall rest, tk_flush (mkworld L (used ++ rest) max) (wr_file t) = (mkworld L1 rest max, t1, r))
    /\ tf_path t1 = tf_path (wr_file t) /\ tf_busy t1 = None /\ tf_err t1 = false
    /\ agree st1 L1 (set_at ws i (mkwriter t1 (wr_pos t))) names.
Proof.
  intros A HT H. unfold bg_settle in H. destruct (agree_some _ _ _ _ _ _ A HT) as (f & HF & SM). rewrite HF in H. destruct f as [p busy err pos].
  pose proof SM as (S1 & S2 & S3 & S0 & S4). cbn [bf_path bf_err bf_pos bf_busy] in *. destruct err.
  - injection H as <- <-. exists [], L, (mktfile (tf_path (wr_file t)) (tf_busy (wr_file t)) false). split; [constructor|]. split; [intros rest; unfold tk_flush; rewrite S2; reflexivity|].
    split; [reflexivity|]. cbn [tf_busy tf_err]. split; [rewrite (S0 eq_refl) in S4; apply S4|]. split; [reflexivity|].
    rewrite <- (app_nil_r L). refine (agree_change st L ws names i _ t _ [] [] _ _ _ _ A HF HT (ag_max _ _ _ _ A) (ag_plan _ _ _ _ A) _ _ _ _ _ (fun j => eq_refl)).
    + rewrite app_nil_r. reflexivity.
    + constructor.
    + constructor.
    + reflexivity.
    + rewrite app_nil_r. split; [exact S1|]. split; [reflexivity|]. split; [exact S3|]. split; [discriminate|]. exact S4.
  - destruct (wait_agree _ _ _ _ _ _ _ _ A HT H) as (used & L1 & t1 & U & E & P1 & P2 & P3 & A1).
    exists used, L1, t1. split; [exact U|]. split; [intros rest; unfold tk_flush; rewrite S2; apply E|]. split; [exact P1|]. split; [exact P3|]. split; [congruence|exact A1].
Qed.

Lemma write_agree st L ws names i t src st1 r : agree st L ws names -> ws i = Some t -> bg_write st i src = (st1, r) ->
  exists used L1 t1, Forall Q used /\ (forall rest, tk_write (mkworld L (used ++ rest) max) (wr_file t) src = (mkworld L1 rest max, t1, r))
    /\ agree st1 L1 (set_at ws i (mkwriter t1 (wr_pos t))) names.
Proof.
  intros A HT H. unfold bg_write in H. apply tick_agree in A. destruct (bg_settle (bg_tick st) i) as [s r0] eqn:ES.
  destruct (settle_agree _ _ _ _ _ _ _ _ A HT ES) as (used & L1 & t1 & U & E & P1 & P2 & P3 & A1).
  assert (K : forall rest, tk_write (mkworld L (used ++ rest) max) (wr_file t) src
    = match r0 with Err => (mkworld L1 rest max, t1, Err) | Ok _ => (mkworld L1 rest max, mktfile (tf_path t1) (Some (firstn max src)) (tf_err t1), Ok (length (firstn max src))) end).
  { intros rest. specialize (E rest). unfold tk_write. unfold tk_flush in E. destruct (tf_err (wr_file t)).
    - destruct r0; [discriminate E|]. injection E as E1 E2 E3. congruence.
    - rewrite E. destruct r0; reflexivity. }
  destruct r0 as [u|].
  - pose proof (set_eq ws i (mkwriter t1 (wr_pos t))) as HT1. destruct (agree_some _ _ _ _ _ _ A1 HT1) as (f & HF & S1 & S2 & S3 & S0 & S4).
    rewrite HF, (ag_max _ _ _ _ A1) in H. injection H as <- <-. exists used, L1, (mktfile (tf_path t1) (Some (firstn max src)) (tf_err t1)). split; [exact U|]. split; [exact K|].
    cbn [wr_file wr_pos] in *. rewrite <- (app_nil_r L1). refine (agree_change s L1 _ names i f _ _ [] [] _ _ _ _ A1 HF HT1 (ag_max _ _ _ _ A1) (ag_plan _ _ _ _ A1) _ _ _ _ _ (fun j => eq_sym (set_twice _ _ _ _ _))).
    + rewrite app_nil_r. reflexivity.
    + constructor.
    + constructor.
    + reflexivity.
    + rewrite app_nil_r. split; [exact S1|]. split; [exact S2|]. split; [exact S3|]. cbn [bf_busy bf_path bf_err wr_file tf_busy]. split; [congruence|]. split; [reflexivity|].
      destruct (bf_busy f) as [[ch [r1|]]|]; destruct S4 as [S4 S5]; try congruence; exact S5.
  - injection H as <- <-. exists used, L1, t1. auto.
Qed.

Lemma write_all_agree fuel : forall st L ws names i t src st1 r, agree st L ws names -> ws i = Some t -> bg_write_all fuel st i src = (st1, r) ->
  exists used L1 t1, Forall Q used /\ (forall rest, tk_write_all fuel (mkworld L (used ++ rest) max) (wr_file t) src = (mkworld L1 rest max, t1, r))
    /\ agree st1 L1 (set_at ws i (mkwriter t1 (wr_pos t))) names.
Proof.
  assert (Z : forall st L ws names i t, agree st L ws names -> ws i = Some t -> agree st L (set_at ws i (mkwriter (wr_file t) (wr_pos t))) names).
  { intros st L ws names i t A HT. eapply agree_ext; [exact A|]. intros j. destruct t as [tf tp]. symmetry. apply (set_same _ _ _ HT). }
  induction fuel as [|fuel IH]; intros st L ws names i t src st1 r A HT H; destruct src as [|b src]; cbn [bg_write_all tk_write_all] in *.
  - injection H as <- <-. exists [], L, (wr_file t). split; [constructor|]. split; [reflexivity|auto].
  - injection H as <- <-. exists [], L, (wr_file t). split; [constructor|]. split; [reflexivity|auto].
  - injection H as <- <-. exists [], L, (wr_file t). split; [constructor|]. split; [reflexivity|auto].
  - destruct (bg_write st i (b :: src)) as [s rw] eqn:EW. destruct (write_agree _ _ _ _ _ _ _ _ _ A HT EW) as (used & L1 & t1 & U & E & A1). destruct rw as [n|].
    + destruct (n =? 0) eqn:EN.
      * injection H as <- <-. exists used, L1, t1. split; [exact U|]. split; [|exact A1]. intros rest. rewrite E, EN. reflexivity.
      * destruct (IH _ _ _ _ _ _ _ _ _ A1 (set_eq _ _ _) H) as (used2 & L2 & t2 & U2 & E2 & A2). cbn [wr_file wr_pos] in *.
        exists (used ++ used2), L2, t2. split; [apply Forall_app; auto|]. split.
        -- intros rest. rewrite <- app_assoc, E, EN. apply E2.
        -- eapply agree_ext; [exact A2|]. intros j. symmetry. apply set_twice.
    + injection H as <- <-. exists used, L1, t1. split; [exact U|]. split; [|exact A1]. intros rest. rewrite E. reflexivity.
Qed.

Lemma within_agree fuel : forall st L ws names i t src st1 r, agree st L ws names -> ws i = Some t -> bg_write_all_within fuel st i src = (st1, r) ->
  exists used L1 t1, Forall Q used /\ (forall rest, tk_write_all_within fuel (mkworld L (used ++ rest) max) (wr_file t) src = (mkworld L1 rest max, t1, r))
    /\ agree st1 L1 (set_at ws i (mkwriter t1 (wr_pos t))) names.
Proof.
  assert (Z : forall st L ws names i t, agree st L ws names -> ws i = Some t -> agree st L (set_at ws i (mkwriter (wr_file t) (wr_pos t))) names).
  { intros st L ws names i t A HT. eapply agree_ext; [exact A|]. intros j. destruct t as [tf tp]. symmetry. apply (set_same _ _ _ HT). }
  induction fuel as [|fuel IH]; intros st L ws names i t src st1 r A HT H; destruct src as [|b src]; cbn [bg_write_all_within tk_write_all_within] in *.
  - injection H as <- <-. exists [], L, (wr_file t). split; [constructor|]. split; [reflexivity|auto].
  - injection H as <- <-. exists [], L, (wr_file t). split; [constructor|]. split; [reflexivity|auto].
  - injection H as <- <-. exists [], L, (wr_file t). split; [constructor|]. split; [reflexivity|auto].
  - destruct (bg_write st i (b :: src)) as [s rw] eqn:EW. destruct (write_agree _ _ _ _ _ _ _ _ _ A HT EW) as (used & L1 & t1 & U & E & A1). destruct rw as [n|].
    + destruct (n =? 0) eqn:EN.
      * injection H as <- <-. exists used, L1, t1. split; [exact U|]. split; [|exact A1]. intros rest. rewrite E, EN. reflexivity.
      * destruct (IH _ _ _ _ _ _ _ _ _ A1 (set_eq _ _ _) H) as (used2 & L2 & t2 & U2 & E2 & A2). cbn [wr_file wr_pos] in *.
        exists (used ++ used2), L2, t2. split; [apply Forall_app; auto|]. split.
        -- intros rest. rewrite <- app_assoc, E, EN. apply E2.
        -- eapply agree_ext; [exact A2|]. intros j. symmetry. apply set_twice.
    + injection H as <- <-. exists used, L1, t1. split; [exact U|]. split; [|exact A1]. intros rest. rewrite E. reflexivity.
Qed.

Lemma sync_agree st L ws names i t st1 r : agree st L ws names -> ws i = Some t -> bg_sync st i = (st1, r) ->
  exists used L1 t1, Forall Q used /\ (forall rest, tk_sync_all (mkworld L (used ++ rest) max) (wr_file t) = (mkworld L1 rest max, t1, r))
    /\ agree st1 L1 (set_at ws i (mkwriter t1 (wr_pos t))) names.
Proof.
  intros A HT H. unfold bg_sync in H. apply tick_agree in A. destruct (bg_settle (bg_tick st) i) as [s r0] eqn:ES.
  destruct (settle_agree _ _ _ _ _ _ _ _ A HT ES) as (used & L1 & t1 & U & E & P1 & P2 & P3 & A1). clear A.
  set (t2 := match r0 with Ok _ => t1 | Err => mktfile (tf_path t1) (tf_busy t1) true end).
  set (s2 := match r0, bs_file s i with Err, Some f => put s (bs_os s) i (mkbfile (bf_path f) (bf_busy f) true (bf_pos f)) | _, _ => s end) in H.
  assert (A2 : agree s2 L1 (set_at ws i (mkwriter t2 (wr_pos t))) names).
  { subst s2 t2. destruct r0 as [u|]; [exact A1|]. pose proof (set_eq ws i (mkwriter t1 (wr_pos t))) as HT1. destruct (agree_some _ _ _ _ _ _ A1 HT1) as (f & HF & S1 & S2 & S3 & S0 & S4). rewrite HF.
    rewrite <- (app_nil_r L1). refine (agree_change s L1 _ names i f _ _ [] [] _ _ _ _ A1 HF HT1 (ag_max _ _ _ _ A1) (ag_plan _ _ _ _ A1) _ _ _ _ _ (fun j => eq_sym (set_twice _ _ _ _ _))).
    + rewrite app_nil_r. reflexivity.
    + constructor.
    + constructor.
    + reflexivity.
    + rewrite app_nil_r. split; [exact S1|]. split; [reflexivity|]. split; [exact S3|]. cbn [bf_err bf_busy wr_file] in *. destruct (bf_busy f) as [[ch [r1|]]|]; destruct S4 as [S4 S5]; try congruence. auto. }
  clearbody s2. clear A1 ES. apply tick_agree in A2. remember (bg_tick s2) as s3 eqn:E3. clear E3.
  pose proof (set_eq ws i (mkwriter t2 (wr_pos t))) as HT2. destruct (agree_some _ _ _ _ _ _ A2 HT2) as (f & HF & S1 & S2 & S3 & S0 & S4). rewrite HF in H.
  pose proof (fate_ok _ (ag_plan _ _ _ _ A2)) as (Q1 & Q2 & Q3 & Q4). destruct (next_fate (bs_os s3)) as [fate w] eqn:EF. cbn [fst snd] in *. cbn [wr_file wr_pos] in *.
  assert (K : forall rest, tk_sync_all (mkworld L ((used ++ [fate]) ++ rest) max) (wr_file t)
    = match fate with None => (mkworld (L1 ++ [FSync (tf_path t2)]) rest max, t2, Ok tt) | Some _ => (mkworld L1 rest max, t2, Err) end).
  { intros rest. unfold tk_sync_all. rewrite <- app_assoc, E. cbn [app]. rewrite fate_of. fold t2. destruct fate; reflexivity. }
  destruct fate as [k|]; injection H as <- <-.
  - exists (used ++ [Some k]), L1, t2. split; [apply Forall_app; auto|]. split; [exact K|].
    rewrite <- (app_nil_r L1). refine (agree_change s3 L1 _ names i f _ _ [] [] _ _ _ _ A2 HF HT2 _ Q2 _ _ _ _ _ (set_same _ _ _ HT2)).
    + rewrite Q4. exact (ag_max _ _ _ _ A2).
    + rewrite app_nil_r. exact Q3.
    + constructor.
    + constructor.
    + reflexivity.
    + rewrite app_nil_r, Q3. split; [exact S1|]. split; [exact S2|]. split; [exact S3|]. split; [exact S0|]. exact S4.
  - exists (used ++ [None]), (L1 ++ [FSync (tf_path t2)]), t2. split; [apply Forall_app; auto|]. split; [exact K|].
    refine (agree_change s3 L1 _ names i f _ _ [FSync (bf_path f)] [FSync (tf_path t2)] _ _ _ _ A2 HF HT2 _ _ _ _ _ _ _ (set_same _ _ _ HT2)).
    + cbn [effect wd_max]. rewrite Q4. exact (ag_max _ _ _ _ A2).
    + exact Q2.
    + cbn [effect wd_log]. rewrite Q3. reflexivity.
    + repeat constructor.
    + repeat constructor. exact S1.
    + reflexivity.
    + split; [exact S1|]. split; [exact S2|]. split; [exact S3|]. cbn [effect wd_log] . rewrite Q3, S1, !events_app.
      assert (B : tf_busy t2 = None) by (subst t2; destruct r0; assumption).
      destruct (bf_busy f) as [[ch [r1|]]|]; destruct S4 as [S4 S5]; try congruence. split; [exact S0|]. split; [exact S4|]. rewrite S5. reflexivity.
Qed.

Lemma move_agree st L ws names i t f b : agree st L ws names -> ws i = Some t -> bs_file st i = Some f ->
  agree (bg_move st i f b) L (set_at ws i (mkwriter (wr_file t) (wr_pos t + N.of_nat (length b))%N)) names.
Proof.
  intros A HT HF. destruct (agree_some _ _ _ _ _ _ A HT) as (f' & HF' & S1 & S2 & S3 & S0 & S4). rewrite HF in HF'. injection HF' as <-.
  rewrite <- (app_nil_r L). refine (agree_change st L ws names i f t _ [] [] _ _ _ _ A HF HT (ag_max _ _ _ _ A) (ag_plan _ _ _ _ A) _ _ _ _ _ (fun j => eq_refl)).
  - rewrite app_nil_r. reflexivity.
  - constructor.
  - constructor.
  - reflexivity.
  - rewrite app_nil_r. split; [exact S1|]. split; [exact S2|]. split; [cbn [wr_pos bf_pos]; rewrite S3; reflexivity|]. split; [exact S0|]. exact S4.
Qed.

Lemma step_agree st L ws names i t f o st1 r : agree st L ws names -> ws i = Some t -> bs_file st i = Some f -> bg_step st i f o = (st1, r) ->
  exists used L1 t1, Forall Q used /\ (forall rest, writer_step (mkworld L (used ++ rest) max) t o = (mkworld L1 rest max, t1, r))
    /\ agree st1 L1 (set_at ws i t1) names.
Proof.
  intros A HT HF H. destruct o as [b| |]; cbn [bg_step] in H.
  - set (n := N.of_nat (length b)) in *. pose proof (move_agree _ _ _ _ _ _ _ b A HT HF) as A1. fold n in A1.
    destruct (write_all_agree _ _ _ _ _ _ _ _ _ _ A1 (set_eq _ _ _) H) as (used & L1 & t1 & U & E & A2). cbn [wr_file wr_pos] in *.
    exists used, L1, (mkwriter t1 (wr_pos t + n)%N). split; [exact U|]. split.
    + intros rest. cbn [writer_step]. unfold writer_write_block. rewrite E. reflexivity.
    + eapply agree_ext; [exact A2|]. intros j. symmetry. apply set_twice.
  - apply tick_agree in A. destruct (settle_agree _ _ _ _ _ _ _ _ A HT H) as (used & L1 & t1 & U & E & _ & _ & _ & A1).
    exists used, L1, (mkwriter t1 (wr_pos t)). split; [exact U|]. split; [|exact A1]. intros rest. cbn [writer_step]. unfold writer_flush. rewrite E. reflexivity.
  - destruct (sync_agree _ _ _ _ _ _ _ _ A HT H) as (used & L1 & t1 & U & E & A1).
    exists used, L1, (mkwriter t1 (wr_pos t)). split; [exact U|]. split; [|exact A1]. intros rest. cbn [writer_step]. unfold writer_sync. rewrite E. reflexivity.
Qed.

Lemma agree_none st L ws names i : agree st L ws names -> ws i = None -> bs_file st i = None.
Proof. intros A H. pose proof (ag_file _ _ _ _ A i) as X. rewrite H in X. destruct (bs_file st i); [contradiction|reflexivity]. Qed.

(** A new file. *)
Lemma agree_new st L ws names i f w : agree st L ws names -> ws i = None -> ~ In f names ->
  wd_max w = max -> Forall Q (wd_plan w) -> wd_log w = wd_log (bs_os st) ++ [FCreate f] ->
  agree (mkbfiles w (set_at (bs_file st) i (mkbfile f None false 0)) (f :: names) (bs_timing st)) (L ++ [FCreate f])
    (set_at ws i (mkwriter (mktfile f None false) 0%N)) (f :: names).
Proof.
  intros A HT NI WM WP WL. pose proof (agree_none _ _ _ _ _ A HT) as HF. destruct A as [AM AP AN AF AD AR].
  assert (OTH : forall j g, bs_file st j = Some g -> bf_path g <> f).
  { intros j g HG X. specialize (AF j). rewrite HG in AF. destruct (ws j); [|contradiction]. destruct AF as [_ AF]. rewrite X in AF. exact (NI AF). }
  assert (EV : forall p, p <> f -> events p (wd_log w) = events p (wd_log (bs_os st)) /\ events p (L ++ [FCreate f]) = events p L).
  { intros p NE. rewrite WL, !events_app, (events_other p f [FCreate f]), !app_nil_r; auto. }
  split; cbn [bs_os bs_file bs_names bs_timing]; [exact WM|exact WP|reflexivity| | |].
  - intros j. unfold set_at. destruct (Nat.eqb_spec j i) as [->|NE].
    + split; [|left; reflexivity]. do 3 (split; [reflexivity|]). split; [reflexivity|]. cbn [bf_busy bf_path]. split; [reflexivity|]. rewrite WL, !events_app. f_equal. apply AR. exact OTH.
    + specialize (AF j). destruct (bs_file st j) as [g|] eqn:HG; [|exact AF]. destruct (ws j) as [u|]; [|exact AF]. destruct AF as [(S1 & S2 & S3 & S0 & S4) S5]. split; [|right; exact S5].
      split; [exact S1|]. split; [exact S2|]. split; [exact S3|]. split; [exact S0|]. destruct (EV (bf_path g) (OTH _ _ HG)) as [E1 E2].
      destruct (bf_busy g) as [[ch [r|]]|]; rewrite E1, E2; exact S4.
  - intros j k g h NE HG HH. unfold set_at in HG, HH. destruct (Nat.eqb_spec j i) as [->|NJ], (Nat.eqb_spec k i) as [->|NK]; try congruence.
    + injection HG as <-. intros X. exact (OTH _ _ HH (eq_sym X)).
    + injection HH as <-. exact (OTH _ _ HG).
    + exact (AD _ _ _ _ NE HG HH).
  - intros p NP. assert (NE : p <> f). { intros ->. exact (NP i _ (set_eq _ _ _) eq_refl). }
    destruct (EV p NE) as [E1 E2]. rewrite E1, E2. apply AR. intros j g HG. destruct (Nat.eq_dec j i) as [->|NJ]; [congruence|].
    apply (NP j g). unfold set_at. destruct (Nat.eqb_spec j i); [contradiction|exact HG].
Qed.

Lemma tick_names st : bs_names (bg_tick st) = bs_names st.
Proof.
  unfold bg_tick. destruct (bs_timing st) as [|now later]; [reflexivity|]. transitivity (bs_names (mkbfiles (bs_os st) (bs_file st) (bs_names st) later)); [|reflexivity].
  generalize (mkbfiles (bs_os st) (bs_file st) (bs_names st) later) as s. induction now as [|i now IH]; intros s; cbn [fold_left]; [reflexivity|]. rewrite IH.
  unfold bg_perform. destruct (bs_file s i) as [[p [[ch [r|]]|] err pos]|]; try reflexivity. destruct (tk_background _ _ _); reflexivity.
Qed.

Lemma call_agree st L ws names i c : agree st L ws names ->
  match bg_call st i c with
  | Some (st1, r) => exists used L1 ws1 names1, Forall Q used
      /\ (forall rest, call_file (mkfiles (mkworld L (used ++ rest) max) ws names) i c = Some (mkfiles (mkworld L1 rest max) ws1 names1, r)) /\ agree st1 L1 ws1 names1
  | None => forall plan, call_file (mkfiles (mkworld L plan max) ws names) i c = None
  end.
Proof.
  intros A. unfold bg_call, call_file. cbn [fs_os fs_writer fs_names]. destruct (ws i) as [t|] eqn:HT.
  - destruct (agree_some _ _ _ _ _ _ A HT) as (f & HF & _). rewrite HF. destruct c as [g|o]; [reflexivity|].
    destruct (bg_step st i f o) as [st1 r] eqn:E. destruct (step_agree _ _ _ _ _ _ _ _ _ _ A HT HF E) as (used & L1 & t1 & U & E1 & A1).
    exists used, L1, (set_at ws i t1), names. split; [exact U|]. split; [|exact A1]. intros rest. rewrite E1. reflexivity.
  - rewrite (agree_none _ _ _ _ _ A HT). destruct c as [f|o]; [|reflexivity]. rewrite (ag_names _ _ _ _ A). destruct (in_dec path_dec f names) as [I|NI]; [reflexivity|].
    pose proof (tick_names st) as TN. rewrite (ag_names _ _ _ _ A) in TN. apply tick_agree in A. remember (bg_tick st) as s eqn:Es. clear Es.
    pose proof (fate_ok _ (ag_plan _ _ _ _ A)) as (Q1 & Q2 & Q3 & Q4). destruct (next_fate (bs_os s)) as [fate w] eqn:EF. cbn [fst snd] in *. rewrite TN. destruct fate as [k|].
    + exists [Some k], L, ws, (f :: names). split; [repeat constructor; exact Q1|]. split; [intros rest; reflexivity|].
      destruct A as [AM AP AN AF AD AR]. split; cbn [bs_os bs_file bs_names bs_timing]; rewrite ?Q3, ?Q4; auto.
      intros j. specialize (AF j). destruct (bs_file s j) as [g|]; [|exact AF]. destruct (ws j); [|exact AF]. destruct AF as [X Y]. split; [exact X|right; exact Y].
    + exists [None], (L ++ [FCreate f]), (set_at ws i (mkwriter (mktfile f None false) 0%N)), (f :: names). split; [repeat constructor; exact Q1|]. split; [intros rest; reflexivity|].
      apply agree_new; auto; cbn [effect wd_max wd_log]; [rewrite Q4; exact (ag_max _ _ _ _ A)|rewrite Q3; reflexivity].
Qed.

Lemma client_agree {A} (c : client A) : forall st L ws names, agree st L ws names ->
  match bg_client c st with
  | Some (st1, a) => exists used L1 ws1 names1, Forall Q used
      /\ (forall rest, run_client c (mkfiles (mkworld L (used ++ rest) max) ws names) = Some (mkfiles (mkworld L1 rest max) ws1 names1, a)) /\ agree st1 L1 ws1 names1
  | None => exists used, Forall Q used /\ forall rest, run_client c (mkfiles (mkworld L (used ++ rest) max) ws names) = None
  end.
Proof.
  induction c as [a|i c next IH|n i b next IH]; intros st L ws names AG; cbn [bg_client run_client].
  - exists [], L, ws, names. split; [constructor|]. split; [reflexivity|exact AG].
  - pose proof (call_agree _ _ _ _ i c AG) as C. destruct (bg_call st i c) as [[s r]|].
    + destruct C as (used & L1 & ws1 & names1 & U & E & A1). specialize (IH r _ _ _ _ A1). destruct (bg_client (next r) s) as [[st1 a]|].
      * destruct IH as (used2 & L2 & ws2 & names2 & U2 & E2 & A2). exists (used ++ used2), L2, ws2, names2. split; [apply Forall_app; auto|]. split; [|exact A2].
        intros rest. rewrite <- app_assoc, E. apply E2.
      * destruct IH as (used2 & U2 & E2). exists (used ++ used2). split; [apply Forall_app; auto|]. intros rest. rewrite <- app_assoc, E. apply E2.
    + exists []. split; [constructor|]. intros rest. rewrite C. reflexivity.
  - cbn [fs_writer fs_os fs_names]. destruct (ws i) as [t|] eqn:HT.
    + destruct (agree_some _ _ _ _ _ _ AG HT) as (f & HF & _). rewrite HF. pose proof (move_agree _ _ _ _ _ _ _ b AG HT HF) as A1.
      destruct (bg_write_all_within n (bg_move st i f b) i b) as [s r] eqn:EW. destruct (within_agree _ _ _ _ _ _ _ _ _ _ A1 (set_eq _ _ _) EW) as (used & L1 & t1 & U & E & A2). cbn [wr_file wr_pos] in *.
      assert (A3 : agree s L1 (set_at ws i (mkwriter t1 (wr_pos t + N.of_nat (length b))%N)) names) by (eapply agree_ext; [exact A2|]; intros j; symmetry; apply set_twice).
      assert (R : forall rest, writer_write_within n (mkworld L (used ++ rest) max) t b = (mkworld L1 rest max, mkwriter t1 (wr_pos t + N.of_nat (length b))%N, r)) by (intros rest; unfold writer_write_within; rewrite E; reflexivity).
      specialize (IH (option_map snd r) _ _ _ _ A3). destruct (bg_client (next (option_map snd r)) s) as [[st1 a]|].
      * destruct IH as (used2 & L2 & ws2 & names2 & U2 & E2 & A4). exists (used ++ used2), L2, ws2, names2. split; [apply Forall_app; auto|]. split; [|exact A4].
        intros rest. rewrite <- app_assoc, R. apply E2.
      * destruct IH as (used2 & U2 & E2). exists (used ++ used2). split; [apply Forall_app; auto|]. intros rest. rewrite <- app_assoc, R. apply E2.
    + rewrite (agree_none _ _ _ _ _ AG HT). exists []. split; [constructor|]. intros rest. reflexivity.
Qed.
End Sim.

Lemma agree_none_yet (Q : option nat -> Prop) w timing : Forall Q (wd_plan w) -> agree Q (wd_max w) (bg_none w timing) (wd_log w) (fun _ => None) [].
Proof. intros F. split; cbn [bg_none bs_os bs_file bs_names]; auto. intros i j f g _ H. discriminate H. Qed.

(** What the agreement says of one file. *)
Lemma agree_file (Q : option nat -> Prop) max st L ws names i t : agree Q max st L ws names -> ws i = Some t ->
  (tf_err (wr_file t) = true -> tf_busy (wr_file t) = None)
  /\ (events (tf_path (wr_file t)) (wd_log (bs_os st)) = events (tf_path (wr_file t)) L
      \/ exists chunk fate, Q fate /\ tf_busy (wr_file t) = Some chunk
           /\ events (tf_path (wr_file t)) (wd_log (bs_os st)) = events (tf_path (wr_file t)) L ++ [FAppend (tf_path (wr_file t)) (cut_at fate chunk)]).
Proof.
  intros AG HT. destruct (agree_some _ _ _ _ _ _ _ _ AG HT) as (f & HF & S1 & S2 & S3 & S0 & S4). rewrite S1, S2.
  destruct (bf_busy f) as [[ch [r|]]|]; destruct S4 as [S4 S5].
  - split; [intros X; specialize (S0 X); discriminate S0|]. right. destruct S5 as (fate & Q1 & _ & S5). exists ch, fate. auto.
  - split; [intros X; specialize (S0 X); discriminate S0|]. left. exact S5.
  - split; [auto|]. left. exact S5.
Qed.

Lemma agree_other (Q : option nat -> Prop) max st L ws names f : agree Q max st L ws names -> (forall i t, ws i = Some t -> tf_path (wr_file t) <> f) ->
  events f (wd_log (bs_os st)) = events f L.
Proof.
  intros AG NF. apply (ag_rest _ _ _ _ _ _ AG). intros i g HG. pose proof (ag_file _ _ _ _ _ _ AG i) as X. rewrite HG in X. destruct (ws i) as [t|] eqn:HT; [|contradiction].
  destruct X as [(S1 & _) _]. rewrite <- S1. exact (NF i t HT).
Qed.

(** The contents of a file depend on its own events only. *)
Lemma directory_events d log f : directory_after d log f = directory_after d (events f log) f.
Proof.
  unfold directory_after. assert (G : forall d', d f = d' f -> fold_left apply_effect log d f = fold_left apply_effect (events f log) d' f); [|apply G; reflexivity].
  revert d. induction log as [|e log IH]; intros d d' E; [exact E|]. unfold events. cbn [filter fold_left]. fold (events f log).
  destruct (path_dec f (event_path e)) as [EF|NF]; cbn [fold_left]; apply IH.
  - destruct e as [g|g b|g]; cbn [apply_effect event_path] in *; destruct (path_dec f g); try congruence.
  - rewrite <- E. destruct e as [g|g b|g]; cbn [apply_effect event_path] in *; destruct (path_dec f g); congruence.
Qed.

(** * Without a schedule *)

Definition lift (t : writer) : bfile :=
  mkbfile (tf_path (wr_file t)) (match tf_busy (wr_file t) with Some ch => Some (ch, None) | None => None end) (tf_err (wr_file t)) (wr_pos t).

(** No thread comes to write on its own. *)
Record lazy (st : bfiles) (w : world) (ws : nat -> option writer) (names : list path) : Prop := mklazy {
  lz_os : bs_os st = w;
  lz_names : bs_names st = names;
  lz_timing : bs_timing st = [];
  lz_file : forall i, bs_file st i = match ws i with Some t => Some (lift t) | None => None end }.

Lemma lazy_tick st w ws names : lazy st w ws names -> bg_tick st = st.
Proof. intros Z. unfold bg_tick. rewrite (lz_timing _ _ _ _ Z). reflexivity. Qed.

Lemma lazy_some st w ws names i t : lazy st w ws names -> ws i = Some t -> bs_file st i = Some (lift t).
Proof. intros Z H. rewrite (lz_file _ _ _ _ Z i), H. reflexivity. Qed.

Lemma lazy_put st w ws names i t w1 f : lazy st w ws names -> f = lift t -> lazy (put st w1 i f) w1 (set_at ws i t) names.
Proof. intros [Z1 Z2 Z3 Z4] ->. split; cbn [put bs_os bs_names bs_timing bs_file]; auto. intros j. unfold set_at. destruct (j =? i); auto. Qed.

Lemma lazy_put_put st w ws names i t w0 w1 f0 f : lazy st w ws names -> f = lift t -> lazy (put (put st w0 i f0) w1 i f) w1 (set_at ws i t) names.
Proof. intros [Z1 Z2 Z3 Z4] ->. split; cbn [put bs_os bs_names bs_timing bs_file]; auto. intros j. unfold set_at. destruct (j =? i); auto. Qed.

Lemma lazy_ext st w ws ws' names : lazy st w ws names -> (forall j, ws' j = ws j) -> lazy st w ws' names.
Proof. intros [Z1 Z2 Z3 Z4] E. split; auto. intros j. rewrite E. apply Z4. Qed.

Lemma lazy_same st w ws names i t : lazy st w ws names -> ws i = Some t -> lazy st w (set_at ws i t) names.
Proof. intros Z H. eapply lazy_ext; [exact Z|]. intros j. symmetry. apply set_same. exact H. Qed.

Lemma lazy_wait st w ws names i t w1 f r : lazy st w ws names -> ws i = Some t -> tk_wait w (wr_file t) = (w1, f, r) ->
  exists st1, bg_wait st i = (st1, r) /\ lazy st1 w1 (set_at ws i (mkwriter f (wr_pos t))) names.
Proof.
  intros Z HT E. unfold bg_wait, bg_perform. rewrite (lazy_some _ _ _ _ _ _ Z HT). unfold lift. unfold tk_wait in E. destruct (tf_busy (wr_file t)) as [ch|] eqn:EB.
  - rewrite (lz_os _ _ _ _ Z). destruct (tk_background w (tf_path (wr_file t)) ch) as [w2 r2]. injection E as <- <- <-. cbn [put bs_file]. rewrite set_eq. eexists. split; [reflexivity|].
    cbn [put bs_os]. eapply lazy_put_put; [exact Z|reflexivity].
  - injection E as <- <- <-. rewrite (lazy_some _ _ _ _ _ _ Z HT). unfold lift. rewrite EB. eexists. split; [reflexivity|]. destruct t as [tf tp]. apply lazy_same; assumption.
Qed.

Lemma lazy_settle st w ws names i t w1 f r : lazy st w ws names -> ws i = Some t -> tk_flush w (wr_file t) = (w1, f, r) ->
  exists st1, bg_settle st i = (st1, r) /\ lazy st1 w1 (set_at ws i (mkwriter f (wr_pos t))) names.
Proof.
  intros Z HT E. unfold bg_settle. rewrite (lazy_some _ _ _ _ _ _ Z HT). unfold tk_flush in E. unfold lift. destruct (tf_err (wr_file t)) eqn:EE; [|apply lazy_wait with (w := w); assumption].
  injection E as <- <- <-. eexists. split; [reflexivity|]. rewrite (lz_os _ _ _ _ Z). eapply lazy_put; [exact Z|reflexivity].
Qed.

Lemma lazy_write st w ws names i t src w1 f r : lazy st w ws names -> ws i = Some t -> tk_write w (wr_file t) src = (w1, f, r) ->
  exists st1, bg_write st i src = (st1, r) /\ lazy st1 w1 (set_at ws i (mkwriter f (wr_pos t))) names.
Proof.
  intros Z HT E. unfold bg_write. rewrite (lazy_tick _ _ _ _ Z).
  destruct (tk_flush w (wr_file t)) as [[w2 f2] r2] eqn:EF. destruct (lazy_settle _ _ _ _ _ _ _ _ _ Z HT EF) as (st2 & -> & Z2).
  unfold tk_write in E. unfold tk_flush in EF. destruct (tf_err (wr_file t)).
  - injection E as <- <- <-. injection EF as <- <- <-. exists st2. auto.
  - rewrite EF in E. destruct r2 as [u|]; injection E as <- <- <-; [|exists st2; auto]. rewrite (lazy_some _ _ _ _ _ _ Z2 (set_eq _ _ _)). rewrite (lz_os _ _ _ _ Z2).
    eexists. split; [reflexivity|]. eapply lazy_ext; [eapply lazy_put; [exact Z2|]|intros j; symmetry; apply set_twice]. reflexivity.
Qed.

Lemma lazy_write_all fuel : forall st w ws names i t src w1 f r, lazy st w ws names -> ws i = Some t -> tk_write_all fuel w (wr_file t) src = (w1, f, r) ->
  exists st1, bg_write_all fuel st i src = (st1, r) /\ lazy st1 w1 (set_at ws i (mkwriter f (wr_pos t))) names.
Proof.
  assert (K : forall st w ws names i t, lazy st w ws names -> ws i = Some t -> lazy st w (set_at ws i (mkwriter (wr_file t) (wr_pos t))) names) by (intros; destruct t; apply lazy_same; assumption).
  induction fuel as [|fuel IH]; intros st w ws names i t src w1 f r Z HT E; destruct src as [|b src]; cbn [bg_write_all tk_write_all] in *.
  1-3: injection E as <- <- <-; exists st; auto.
  destruct (tk_write w (wr_file t) (b :: src)) as [[w2 f2] r2] eqn:EW. destruct (lazy_write _ _ _ _ _ _ _ _ _ _ Z HT EW) as (st2 & -> & Z2).
  destruct r2 as [n|]; [|injection E as <- <- <-; exists st2; auto]. destruct (n =? 0); [injection E as <- <- <-; exists st2; auto|].
  destruct (IH _ _ _ _ i (mkwriter f2 (wr_pos t)) _ _ _ _ Z2 (set_eq _ _ _) E) as (st3 & -> & Z3). exists st3. split; [reflexivity|]. eapply lazy_ext; [exact Z3|]. intros j. symmetry. apply set_twice.
Qed.

Lemma lazy_within fuel : forall st w ws names i t src w1 f r, lazy st w ws names -> ws i = Some t -> tk_write_all_within fuel w (wr_file t) src = (w1, f, r) ->
  exists st1, bg_write_all_within fuel st i src = (st1, r) /\ lazy st1 w1 (set_at ws i (mkwriter f (wr_pos t))) names.
Proof.
  assert (K : forall st w ws names i t, lazy st w ws names -> ws i = Some t -> lazy st w (set_at ws i (mkwriter (wr_file t) (wr_pos t))) names) by (intros; destruct t; apply lazy_same; assumption).
  induction fuel as [|fuel IH]; intros st w ws names i t src w1 f r Z HT E; destruct src as [|b src]; cbn [bg_write_all_within tk_write_all_within] in *.
  1-3: injection E as <- <- <-; exists st; auto.
  destruct (tk_write w (wr_file t) (b :: src)) as [[w2 f2] r2] eqn:EW. destruct (lazy_write _ _ _ _ _ _ _ _ _ _ Z HT EW) as (st2 & -> & Z2).
  destruct r2 as [n|]; [|injection E as <- <- <-; exists st2; auto]. destruct (n =? 0); [injection E as <- <- <-; exists st2; auto|].
  destruct (IH _ _ _ _ i (mkwriter f2 (wr_pos t)) _ _ _ _ Z2 (set_eq _ _ _) E) as (st3 & -> & Z3). exists st3. split; [reflexivity|]. eapply lazy_ext; [exact Z3|]. intros j. symmetry. apply set_twice.
Qed.

Lemma lazy_move st w ws names i t b : lazy st w ws names -> ws i = Some t ->
  lazy (bg_move st i (lift t) b) w (set_at ws i (mkwriter (wr_file t) (wr_pos t + N.of_nat (length b))%N)) names.
Proof. intros Z HT. unfold bg_move. rewrite (lz_os _ _ _ _ Z). eapply lazy_put; [exact Z|reflexivity]. Qed.

Lemma lazy_step st w ws names i t o w1 t1 r : lazy st w ws names -> ws i = Some t -> writer_step w t o = (w1, t1, r) ->
  exists st1, bg_step st i (lift t) o = (st1, r) /\ lazy st1 w1 (set_at ws i t1) names.
Proof.
  intros Z HT E. destruct o as [b| |]; cbn [writer_step bg_step] in *.
  - unfold writer_write_block in E. destruct (tk_write_all (length b) w (wr_file t) b) as [[w2 f2] r2] eqn:EW. injection E as <- <- <-.
    pose proof (lazy_move _ _ _ _ _ _ b Z HT) as Z1.
    destruct (lazy_write_all _ _ _ _ _ i (mkwriter (wr_file t) (wr_pos t + N.of_nat (length b))%N) _ _ _ _ Z1 (set_eq _ _ _) EW) as (st2 & E2 & Z2). exists st2. split; [exact E2|].
    eapply lazy_ext; [exact Z2|]. intros j. symmetry. apply set_twice.
  - unfold writer_flush in E. destruct (tk_flush w (wr_file t)) as [[w2 f2] r2] eqn:EF. injection E as <- <- <-. rewrite (lazy_tick _ _ _ _ Z). eapply lazy_settle; eassumption.
  - unfold writer_sync, tk_sync_all in E. unfold bg_sync. rewrite (lazy_tick _ _ _ _ Z). destruct (tk_flush w (wr_file t)) as [[w2 f2] r2] eqn:EF.
    destruct (lazy_settle _ _ _ _ _ _ _ _ _ Z HT EF) as (st2 & -> & Z2).
    set (f3 := match r2 with Ok _ => f2 | Err => mktfile (tf_path f2) (tf_busy f2) true end) in *.
    rewrite (lazy_some _ _ _ _ _ _ Z2 (set_eq _ _ _)).
    match goal with |- context [bg_tick ?s] => assert (Z3 : lazy s w2 (set_at ws i (mkwriter f3 (wr_pos t))) names); [|rewrite (lazy_tick _ _ _ _ Z3); remember s as s3] end.
    { subst f3. destruct r2 as [u|]; [exact Z2|]. rewrite (lz_os _ _ _ _ Z2). eapply lazy_ext; [eapply lazy_put; [exact Z2|]|intros j; symmetry; apply set_twice]. reflexivity. }
    rewrite (lazy_some _ _ _ _ _ _ Z3 (set_eq _ _ _)), (lz_os _ _ _ _ Z3). destruct (next_fate w2) as [[k|] w4]; injection E as <- <- <-; eexists; (split; [reflexivity|]).
    + eapply lazy_ext; [eapply lazy_put; [exact Z3|reflexivity]|intros j; symmetry; apply set_twice].
    + eapply lazy_ext; [eapply lazy_put; [exact Z3|reflexivity]|intros j; symmetry; apply set_twice].
Qed.

Lemma lazy_client {A} (c : client A) : forall st w ws names, lazy st w ws names ->
  match run_client c (mkfiles w ws names) with
  | Some (fs, a) => exists st1, bg_client c st = Some (st1, a) /\ lazy st1 (fs_os fs) (fs_writer fs) (fs_names fs)
  | None => bg_client c st = None
  end.
Proof.
  induction c as [a|i c next IH|n i b next IH]; intros st w ws names Z; cbn [run_client bg_client].
  - exists st. auto.
  - unfold call_file, bg_call. cbn [fs_os fs_writer fs_names]. rewrite (lz_file _ _ _ _ Z i), (lz_names _ _ _ _ Z). destruct c as [f|o]; destruct (ws i) as [t|] eqn:HT; try reflexivity.
    + destruct (in_dec path_dec f names); [reflexivity|]. rewrite (lazy_tick _ _ _ _ Z), (lz_os _ _ _ _ Z), (lz_names _ _ _ _ Z). unfold writer_new, tk_create. destruct (next_fate w) as [[k|] w1].
      * apply IH. destruct Z. split; auto.
      * apply IH. destruct Z as [Z1 Z2 Z3 Z4]. split; auto. cbn [bs_file]. intros j. unfold set_at. destruct (j =? i); [reflexivity|apply Z4].
    + destruct (writer_step w t o) as [[w1 t1] r] eqn:E. destruct (lazy_step _ _ _ _ _ _ _ _ _ _ Z HT E) as (st1 & -> & Z1). apply IH. exact Z1.
  - cbn [fs_writer fs_os fs_names]. rewrite (lz_file _ _ _ _ Z i). destruct (ws i) as [t|] eqn:HT; [|reflexivity]. pose proof (lazy_move _ _ _ _ _ _ b Z HT) as Z1.
    unfold writer_write_within. destruct (tk_write_all_within n w (wr_file t) b) as [[w1 t1] r] eqn:E.
    destruct (lazy_within _ _ _ _ _ i (mkwriter (wr_file t) (wr_pos t + N.of_nat (length b))%N) _ _ _ _ Z1 (set_eq _ _ _) E) as (st1 & -> & Z2). apply IH.
    eapply lazy_ext; [exact Z2|]. intros j. symmetry. apply set_twice.
Qed.

Lemma lazy_none w : lazy (bg_none w []) w (fun _ => None) [].
Proof. split; reflexivity. Qed.

Lemma lazy_agree (Q : option nat -> Prop) max st w ws names L ws' names' : lazy st w ws names -> agree Q max st L ws' names' ->
  (forall i, ws' i = ws i) /\ (forall i t, ws i = Some t -> events (tf_path (wr_file t)) (wd_log w) = events (tf_path (wr_file t)) L).
Proof.
  intros Z AG. assert (K : forall i, ws' i = ws i /\ forall t, ws i = Some t -> events (tf_path (wr_file t)) (wd_log w) = events (tf_path (wr_file t)) L); [|split; intros i; apply K].
  intros i. pose proof (ag_file _ _ _ _ _ _ AG i) as X. pose proof (lz_file _ _ _ _ Z i) as Y. destruct (ws i) as [t|]; rewrite Y in X; destruct (ws' i) as [t'|]; try contradiction; [|auto using eq_refl; split; [reflexivity|intros t H; discriminate H]].
  destruct X as [(S1 & S2 & S3 & _ & S4) _]. rewrite (lz_os _ _ _ _ Z) in S4. destruct t as [[p b e] n], t' as [[p' b' e'] n']. unfold lift in *. cbn [wr_file wr_pos tf_path tf_busy tf_err bf_path bf_err bf_busy bf_pos] in *. subst p' e' n'.
  destruct b as [ch|]; destruct S4 as [S4 S5]; subst b'; (split; [reflexivity|]); intros t E; injection E as <-; exact S5.
Qed.
