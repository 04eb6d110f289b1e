(** Facts about the batch read stream. *)
From Coq Require Import Permutation.
From Verif Require Import Base Io IoReadProofs.
Open Scope nat_scope.

Definition shape (run : list fut) : list (nat * read_op) := map (fun f => (fu_ix f, fu_op f)) run.

(** ** Futures in progress *)

Lemma find_fut_ix : forall run ix f, find_fut ix run = Some f -> fu_ix f = ix /\ In f run.
Proof.
  induction run as [|g run IH]; intros ix f E; [discriminate|]. cbn in E.
  destruct (Nat.eqb_spec (fu_ix g) ix).
  - inversion E; subst. split; [reflexivity|left; reflexivity].
  - destruct (IH _ _ E). split; [assumption|right; assumption].
Qed.

Lemma find_fut_in : forall run ix, In ix (map fu_ix run) -> exists f, find_fut ix run = Some f.
Proof.
  induction run as [|g run IH]; intros ix H; [destruct H|]. cbn.
  destruct (Nat.eqb_spec (fu_ix g) ix) as [|Ne]; [eauto|]. apply IH.
  destruct H as [H|H]; [cbn in H; congruence|exact H].
Qed.

Lemma find_fut_drop : forall run ix f,
  find_fut ix run = Some f -> Permutation run (f :: drop_fut ix run).
Proof.
  induction run as [|g run IH]; intros ix f E; [discriminate|]. cbn in *.
  destruct (Nat.eqb_spec (fu_ix g) ix).
  - inversion E; subst. apply Permutation_refl.
  - apply IH in E. eapply perm_trans; [apply perm_skip; exact E|]. apply perm_swap.
Qed.

Lemma find_fut_drop_other : forall run ix j,
  ix <> j -> find_fut j (drop_fut ix run) = find_fut j run.
Proof.
  induction run as [|g run IH]; intros ix j Ne; [reflexivity|]. cbn.
  destruct (Nat.eqb_spec (fu_ix g) ix); destruct (Nat.eqb_spec (fu_ix g) j); cbn.
  - congruence.
  - reflexivity.
  - destruct (Nat.eqb_spec (fu_ix g) j); [reflexivity|congruence].
  - destruct (Nat.eqb_spec (fu_ix g) j); [congruence|]. apply IH. assumption.
Qed.

Lemma find_fut_set : forall run ix j st,
  find_fut j (set_fut ix st run)
  = if ix =? j then option_map (fun f => mkfut (fu_ix f) (fu_op f) st) (find_fut j run)
    else find_fut j run.
Proof.
  induction run as [|g run IH]; intros ix j st; [cbn; destruct (ix =? j); reflexivity|]. cbn.
  destruct (Nat.eqb_spec (fu_ix g) ix) as [E|E]; cbn.
  - subst ix. destruct (fu_ix g =? j); reflexivity.
  - destruct (Nat.eqb_spec (fu_ix g) j) as [E3|E3].
    + destruct (Nat.eqb_spec ix j); [congruence|reflexivity].
    + apply IH.
Qed.

Lemma shape_set : forall run ix st, shape (set_fut ix st run) = shape run.
Proof.
  induction run as [|g run IH]; intros ix st; [reflexivity|]. cbn.
  destruct (Nat.eqb_spec (fu_ix g) ix); cbn; [subst; reflexivity|]. f_equal. apply IH.
Qed.

Lemma ixs_shape : forall run, map fu_ix run = map fst (shape run).
Proof. intros. unfold shape. rewrite map_map. reflexivity. Qed.

(** A finished read has the outcome of its own request. *)
Definition outcome_of (p : profile) (file : list N) (op : read_op) (r : result (list N)) : Prop :=
  exists plan, read_block p file plan (op_start op) (op_end op) = Ret r.

Definition fut_ok (p : profile) (Q : read_op -> result (list N) -> Prop) (ops : list read_op) (f : fut) : Prop :=
  nth_error ops (fu_ix f) = Some (fu_op f)
  /\ forall r, fu_st f = FReady r -> Q (fu_op f) r.

Lemma read_op_outcome_of : forall p file op plan r,
  read_op_outcome p file op plan = Some r -> outcome_of p file op r.
Proof.
  intros p file op plan r E. unfold read_op_outcome in E.
  destruct (read_block p file plan (op_start op) (op_end op)) eqn:R; try discriminate.
  inversion E; subst. exists plan. exact R.
Qed.

(** Whatever holds of the outcomes of reads from this file. *)
Definition outcomes (p : profile) (file : list N) (Q : read_op -> result (list N) -> Prop) : Prop :=
  forall op r, outcome_of p file op r -> Q op r.

Lemma set_fut_ok : forall p Q ops run ix st,
  Forall (fut_ok p Q ops) run ->
  (forall f r, find_fut ix run = Some f -> st = FReady r -> Q (fu_op f) r) ->
  Forall (fut_ok p Q ops) (set_fut ix st run).
Proof.
  intros p Q ops run ix st F H. induction run as [|g run IH]; [constructor|].
  apply Forall_cons_iff in F. destruct F as [G F]. cbn in *.
  destruct (Nat.eqb_spec (fu_ix g) ix) as [E|E].
  - constructor; [|assumption]. destruct G as [G1 G2]. split; cbn; [rewrite <- E; exact G1|].
    intros r Es. eapply H; [reflexivity|exact Es].
  - constructor; [assumption|]. apply IH; assumption.
Qed.

Lemma poll_unordered_spec : forall order p file Q ops run run' rest res, outcomes p file Q ->
  poll_unordered p file order run = (run', rest, res) ->
  Forall (fut_ok p Q ops) run ->
  match res with
  | None => shape run' = shape run /\ Forall (fut_ok p Q ops) run'
  | Some (f, r) =>
      Permutation (shape run) ((fu_ix f, fu_op f) :: shape run')
      /\ nth_error ops (fu_ix f) = Some (fu_op f)
      /\ Forall (fut_ok p Q ops) run' /\ Q (fu_op f) r
  end.
Proof.
  induction order as [|[ix quick] order IH]; intros p file Q ops run run' rest res HQ E F.
  { inversion E; subst. auto. }
  assert (TAKE : forall f r, find_fut ix run = Some f -> Q (fu_op f) r ->
    drop_fut ix run = run' -> Some (f, r) = res ->
    match res with
    | None => shape run' = shape run /\ Forall (fut_ok p Q ops) run'
    | Some (f, r) =>
        Permutation (shape run) ((fu_ix f, fu_op f) :: shape run')
        /\ nth_error ops (fu_ix f) = Some (fu_op f)
        /\ Forall (fut_ok p Q ops) run' /\ Q (fu_op f) r
    end).
  { intros f r Ff O E1 E2. subst run' res. pose proof (find_fut_drop _ _ _ Ff) as PD.
    split; [apply (Permutation_map (fun f => (fu_ix f, fu_op f))) in PD; exact PD|].
    pose proof (Permutation_Forall PD F) as F2. apply Forall_cons_iff in F2.
    destruct F2 as [[G _] F2]. auto. }
  assert (SKIP : poll_unordered p file order (set_fut ix FRunning run) = (run', rest, res) ->
    match res with
    | None => shape run' = shape run /\ Forall (fut_ok p Q ops) run'
    | Some (f, r) =>
        Permutation (shape run) ((fu_ix f, fu_op f) :: shape run')
        /\ nth_error ops (fu_ix f) = Some (fu_op f)
        /\ Forall (fut_ok p Q ops) run' /\ Q (fu_op f) r
    end).
  { intros E2. apply IH with (Q := Q) (ops := ops) in E2; [| exact HQ|].
    - rewrite shape_set in E2. exact E2.
    - apply set_fut_ok; [assumption|discriminate]. }
  cbn [poll_unordered] in E. destruct (find_fut ix run) as [f|] eqn:Ff.
  - assert (Fo : fut_ok p Q ops f).
    { destruct (find_fut_ix _ _ _ Ff) as [_ I]. rewrite Forall_forall in F. auto. }
    destruct (fu_st f) as [| |r] eqn:S0.
    + destruct quick as [plan|]; [|apply SKIP; exact E].
      destruct (read_op_outcome p file (fu_op f) plan) as [r|] eqn:R; [|apply SKIP; exact E].
      inversion E; subst.
      eapply (TAKE f r eq_refl (HQ _ _ (read_op_outcome_of _ _ _ _ _ R)) eq_refl eq_refl).
    + destruct quick as [plan|]; [|apply SKIP; exact E].
      destruct (read_op_outcome p file (fu_op f) plan) as [r|] eqn:R; [|apply SKIP; exact E].
      inversion E; subst.
      eapply (TAKE f r eq_refl (HQ _ _ (read_op_outcome_of _ _ _ _ _ R)) eq_refl eq_refl).
    + inversion E; subst. destruct Fo as [_ Fo].
      eapply (TAKE f r eq_refl (Fo _ S0) eq_refl eq_refl).
  - eapply IH; eassumption.
Qed.

(** ** Waiting outputs *)

Lemma heap_peek_none : forall q, heap_peek q = None -> q = [].
Proof.
  intros [|e q] E; [reflexivity|]. cbn [heap_peek] in E. destruct (heap_peek q) as [e'|]; [|discriminate E].
  destruct (fst e' <? fst e); discriminate E.
Qed.

Lemma heap_peek_spec : forall q e,
  heap_peek q = Some e ->
  Permutation q (e :: heap_remove (fst e) q) /\ Forall (fun e' => fst e <= fst e') q.
Proof.
  induction q as [|x q IH]; intros e E; [discriminate|]. cbn [heap_peek] in E.
  destruct (heap_peek q) as [y|] eqn:P.
  - destruct (IH y eq_refl) as [PY FY]. destruct (Nat.ltb_spec (fst y) (fst x)).
    + inversion E; subst. split.
      * cbn. destruct (Nat.eqb_spec (fst x) (fst e)); [lia|].
        eapply perm_trans; [apply perm_skip; exact PY|]. apply perm_swap.
      * constructor; [lia|assumption].
    + inversion E; subst. split.
      * cbn. rewrite Nat.eqb_refl. apply Permutation_refl.
      * constructor; [lia|]. eapply Forall_impl; [|exact FY]. cbn. intros. lia.
  - inversion E; subst. apply heap_peek_none in P. subst q. split.
    + cbn. rewrite Nat.eqb_refl. apply Permutation_refl.
    + repeat constructor.
Qed.

(** ** The invariant *)

Definition entry_ok (p : profile) (Q : read_op -> result (list N) -> Prop) (ops : list read_op)
    (e : nat * (read_op * result (list N))) : Prop :=
  nth_error ops (fst e) = Some (fst (snd e)) /\ Q (fst (snd e)) (snd (snd e)).

Record inv (p : profile) (Q : read_op -> result (list N) -> Prop) (ops : list read_op) (s : stream) : Prop := {
  inv_src : st_src s = skipn (st_in s) ops;
  inv_in : st_in s <= length ops;
  inv_out : st_out s <= st_in s;
  inv_ixs : Permutation (map fu_ix (st_run s) ++ map fst (st_queue s))
              (seq (st_out s) (st_in s - st_out s));
  inv_two : st_in s - st_out s <= BLOCK_BUFFER_SIZE;
  inv_run : Forall (fut_ok p Q ops) (st_run s);
  inv_queue : Forall (entry_ok p Q ops) (st_queue s);
  inv_done : st_done s = true -> st_src s = []
}.

Lemma inv_count : forall p Q ops s,
  inv p Q ops s -> length (st_run s) + length (st_queue s) = st_in s - st_out s.
Proof.
  intros p Q ops s I. pose proof (Permutation_length (inv_ixs _ _ _ _ I)) as L.
  rewrite app_length, !map_length, seq_length in L. exact L.
Qed.

Lemma inv_start : forall p Q ops, inv p Q ops (read_blocks ops).
Proof.
  intros. constructor; cbn; try lia; try constructor; discriminate.
Qed.

Lemma skipn_cons_nth : forall A n (l : list A) x rest,
  skipn n l = x :: rest -> nth_error l n = Some x /\ skipn (S n) l = rest /\ n < length l.
Proof.
  induction n as [|n IH]; intros [|y l] x rest E; cbn in *; try discriminate.
  - inversion E; subst. repeat split; lia.
  - destruct (IH _ _ _ E) as (A1 & A2 & A3). repeat split; auto; lia.
Qed.

Lemma fill_inv : forall fuel p Q ops s,
  inv p Q ops s -> inv p Q ops (fill fuel s)
  /\ st_out (fill fuel s) = st_out s
  /\ st_queue (fill fuel s) = st_queue s
  /\ (exists more, st_run (fill fuel s) = st_run s ++ more)
  /\ st_in s <= st_in (fill fuel s)
  /\ (2 - (st_in s - st_out s) < fuel ->
      st_in (fill fuel s) - st_out s < 2 ->
      st_src (fill fuel s) = [] /\ st_done (fill fuel s) = true).
Proof.
  induction fuel as [|fuel IH]; intros p Q ops s I.
  { cbn. split; [assumption|]. split; [reflexivity|]. split; [reflexivity|].
    split; [exists []; rewrite app_nil_r; reflexivity|]. split; [lia|]. intros; lia. }
  pose proof (inv_count _ _ _ _ I) as C. cbn [fill].
  destruct (Nat.ltb_spec (length (st_run s) + length (st_queue s)) BLOCK_BUFFER_SIZE) as [Lt|Ge].
  2:{ unfold BLOCK_BUFFER_SIZE in *. split; [assumption|]. split; [reflexivity|].
      split; [reflexivity|]. split; [exists []; rewrite app_nil_r; reflexivity|].
      split; [lia|]. intros _ H. lia. }
  destruct (st_src s) as [|op rest] eqn:Es.
  - split.
    + destruct I. constructor; cbn [st_src st_done st_run st_queue st_in st_out]; auto. congruence.
    + cbn [st_src st_done st_run st_queue st_in st_out].
      split; [reflexivity|]. split; [reflexivity|].
      split; [exists []; rewrite app_nil_r; reflexivity|]. split; [lia|]. auto.
  - destruct I as [Isrc Iin Iout Iixs Itwo Irun Iq Idone].
    rewrite Es in Isrc. destruct (skipn_cons_nth _ _ _ _ _ (eq_sym Isrc)) as (N1 & N2 & N3).
    assert (I' : inv p Q ops (mkstream rest (st_done s)
      (st_run s ++ [mkfut (st_in s) op FNew]) (st_queue s) (S (st_in s)) (st_out s))).
    { constructor; cbn [st_src st_done st_run st_queue st_in st_out].
      - auto.
      - lia.
      - lia.
      - replace (S (st_in s) - st_out s) with (S (st_in s - st_out s)) by lia.
        rewrite seq_S. replace (st_out s + (st_in s - st_out s)) with (st_in s) by lia.
        rewrite map_app. cbn [map fu_ix]. rewrite <- app_assoc.
        eapply perm_trans; [apply Permutation_app_head; apply Permutation_app_comm|].
        rewrite app_assoc. apply Permutation_app_tail. exact Iixs.
      - unfold BLOCK_BUFFER_SIZE in *. lia.
      - apply Forall_app. split; [assumption|]. constructor; [|constructor]. split; cbn; [exact N1|].
        discriminate.
      - assumption.
      - intros D. specialize (Idone D). rewrite Es in Idone. discriminate. }
    destruct (IH p Q ops _ I') as (J & O & QU & (more & R) & In & P).
    cbn [st_src st_done st_run st_queue st_in st_out] in *.
    split; [exact J|]. split; [exact O|]. split; [exact QU|].
    split; [eexists; rewrite R, <- app_assoc; reflexivity|].
    split; [lia|]. intros H1 H2. apply P; lia.
Qed.

Lemma seq_S_inv : forall k a l, Permutation (a :: l) (seq a k) ->
  exists k', k = S k' /\ Permutation l (seq (S a) k').
Proof.
  intros [|k] a l H.
  - apply Permutation_sym, Permutation_nil in H. discriminate.
  - exists k. split; [reflexivity|]. cbn in H. eapply Permutation_cons_inv. exact H.
Qed.

Definition item_ok (p : profile) (Q : read_op -> result (list N) -> Prop) (op : read_op) (it : block_item) : Prop :=
  bi_tag it = op_tag op /\ Q op (bi_buf it).

(** What one poll may do, after the requests were started: serve the next
    request, or nothing. *)
Definition poll_good (p : profile) (Q : read_op -> result (list N) -> Prop) (ops : list read_op) (s s' : stream)
    (r : poll_result) : Prop :=
  inv p Q ops s' /\ st_in s' = st_in s
  /\ match r with
     | PReady it => st_out s' = S (st_out s)
                    /\ exists op, nth_error ops (st_out s) = Some op /\ item_ok p Q op it
     | PPending => st_out s' = st_out s
     | PEnd => st_out s' = st_out s /\ st_run s' = []
     end.

Lemma poll_ordered_spec : forall fuel p file Q ops order s s' r, outcomes p file Q ->
  poll_ordered fuel p file order s = (s', r) -> inv p Q ops s -> poll_good p Q ops s s' r.
Proof.
  induction fuel as [|fuel IH]; intros p file Q ops order s s' r HQ E I.
  { inversion E; subst. unfold poll_good. auto. }
  cbn [poll_ordered] in E.
  destruct (poll_unordered p file order (st_run s)) as [[run rest] res] eqn:U.
  pose proof (poll_unordered_spec _ _ _ Q ops _ _ _ _ HQ U (inv_run _ _ _ _ I)) as H.
  destruct I as [Isrc Iin Iout Iixs Itwo Irun Iq Idone].
  destruct res as [[f rr]|].
  - destruct H as (PS & Nf & F & O).
    assert (PI : Permutation (map fu_ix (st_run s)) (fu_ix f :: map fu_ix run)).
    { rewrite !ixs_shape. apply (Permutation_map fst) in PS. exact PS. }
    destruct (Nat.eqb_spec (fu_ix f) (st_out s)) as [Eo|No].
    + inversion E; subst s' r; clear E.
      assert (PQ : Permutation (st_out s :: map fu_ix run ++ map fst (st_queue s))
                     (seq (st_out s) (st_in s - st_out s))).
      { rewrite <- Eo at 1. change (fu_ix f :: map fu_ix run ++ map fst (st_queue s))
          with ((fu_ix f :: map fu_ix run) ++ map fst (st_queue s)).
        eapply perm_trans; [apply Permutation_app_tail; apply Permutation_sym; exact PI|]. exact Iixs. }
      destruct (seq_S_inv _ _ _ PQ) as (k & Ek & PK).
      split; [|split; [reflexivity|]].
      * constructor; cbn [st_src st_done st_run st_queue st_in st_out]; auto; try lia.
        replace (st_in s - S (st_out s)) with k by lia. exact PK.
      * cbn. split; [reflexivity|]. exists (fu_op f). rewrite <- Eo. split; [exact Nf|].
        split; [reflexivity|exact O].
    + apply IH with (Q := Q) (ops := ops) in E; [| exact HQ|].
      * unfold poll_good in *. exact E.
      * constructor; cbn [st_src st_done st_run st_queue st_in st_out]; auto.
        -- rewrite map_app. cbn [map fst].
           eapply perm_trans; [|exact Iixs].
           rewrite app_assoc. eapply perm_trans; [apply Permutation_app_comm|]. cbn [app].
           change (fu_ix f :: map fu_ix run ++ map fst (st_queue s))
             with ((fu_ix f :: map fu_ix run) ++ map fst (st_queue s)).
           apply Permutation_app_tail. apply Permutation_sym. exact PI.
        -- apply Forall_app. split; [assumption|]. constructor; [|constructor]. split; cbn; assumption.
  - destruct H as (SH & F). inversion E; subst s' r; clear E.
    assert (I' : inv p Q ops (mkstream (st_src s) (st_done s) run (st_queue s) (st_in s) (st_out s))).
    { constructor; cbn [st_src st_done st_run st_queue st_in st_out]; auto.
      rewrite ixs_shape, SH, <- ixs_shape. exact Iixs. }
    destruct run; (split; [exact I'|]); (split; [reflexivity|]); cbn; auto.
Qed.

Lemma ordered_next_spec : forall p file Q ops order s s' r, outcomes p file Q ->
  ordered_next p file order s = (s', r) -> inv p Q ops s -> poll_good p Q ops s s' r.
Proof.
  intros p file Q ops order s s' r HQ E I. unfold ordered_next in E.
  destruct (heap_peek (st_queue s)) as [[ix [op rr]]|] eqn:P.
  2:{ eapply poll_ordered_spec; eassumption. }
  destruct (Nat.eqb_spec ix (st_out s)) as [->|Ne].
  2:{ eapply poll_ordered_spec; eassumption. }
  inversion E; subst s' r; clear E. destruct (heap_peek_spec _ _ P) as (PP & _). cbn [fst] in PP.
  destruct I as [Isrc Iin Iout Iixs Itwo Irun Iq Idone].
  pose proof (Permutation_Forall PP Iq) as Fq. apply Forall_cons_iff in Fq.
  destruct Fq as [[Nf O] Fq]. cbn in Nf, O.
  assert (PQ : Permutation (st_out s :: map fu_ix (st_run s)
                 ++ map fst (heap_remove (st_out s) (st_queue s)))
                 (seq (st_out s) (st_in s - st_out s))).
  { eapply perm_trans; [|exact Iixs]. eapply perm_trans; [apply Permutation_middle|].
    apply Permutation_app_head. apply Permutation_sym.
    apply (Permutation_map fst) in PP. exact PP. }
  destruct (seq_S_inv _ _ _ PQ) as (k & Ek & PK).
  split; [|split; [reflexivity|]].
  - constructor; cbn [st_src st_done st_run st_queue st_in st_out]; auto; try lia.
    replace (st_in s - S (st_out s)) with k by lia. exact PK.
  - cbn. split; [reflexivity|]. exists op. split; [exact Nf|]. split; [reflexivity|exact O].
Qed.

(** One poll: the next request is served, or nothing is, and the end is only
    reported once everything has been served. *)
Lemma poll_stream_spec : forall p file Q ops order s s' r, outcomes p file Q ->
  poll_stream p file order s = (s', r) -> inv p Q ops s ->
  inv p Q ops s'
  /\ match r with
     | PReady it => st_out s' = S (st_out s)
                    /\ exists op, nth_error ops (st_out s) = Some op /\ item_ok p Q op it
     | PPending => st_out s' = st_out s
     | PEnd => st_out s' = st_out s /\ st_out s = length ops
     end.
Proof.
  intros p file Q ops order s s' r HQ E I. unfold poll_stream in E.
  destruct (fill_inv (S BLOCK_BUFFER_SIZE) p Q ops s I) as (I1 & O1 & Q1 & _ & _ & D1).
  set (s1 := fill (S BLOCK_BUFFER_SIZE) s) in *.
  destruct (ordered_next p file order s1) as [s2 r2] eqn:N.
  pose proof (ordered_next_spec _ _ _ _ _ _ _ _ HQ N I1) as (I2 & In2 & G).
  destruct r2 as [it| |].
  - inversion E; subst. split; [assumption|]. rewrite O1 in G. exact G.
  - inversion E; subst. split; [assumption|]. rewrite O1 in G. exact G.
  - inversion E; subst s' r; clear E. destruct G as (G & Er). split; [assumption|].
    destruct (st_done s2) eqn:Dn; [|congruence]. split; [congruence|].
    assert (Src : st_src s2 = []) by (apply (inv_done _ _ _ _ I2); assumption).
    pose proof (inv_count _ _ _ _ I2) as C2.
    assert (Len : length ops <= st_in s2).
    { rewrite (inv_src _ _ _ _ I2) in Src. apply (f_equal (@length _)) in Src.
      rewrite skipn_length in Src. cbn in Src. lia. }
    pose proof (inv_in _ _ _ _ I2). pose proof (inv_out _ _ _ _ I2).
    (* nothing in progress, so the queue holds every started request; it would
       then have been served first *)
    destruct (le_lt_dec (st_in s2) (st_out s2)) as [Le|Lt]; [lia|exfalso].
    assert (Iq : In (st_out s2) (map fst (st_queue s2))).
    { apply (Permutation_in (l := map fu_ix (st_run s2) ++ map fst (st_queue s2))
                            (l' := map fst (st_queue s2))).
      - rewrite Er. apply Permutation_refl.
      - eapply Permutation_in; [apply Permutation_sym; exact (inv_ixs _ _ _ _ I2)|].
        apply in_seq. lia. }
    clear -N Iq Er G I1.
    (* the loop never puts the next index into the queue *)
    assert (LOOP : forall fuel order s s' , poll_ordered fuel p file order s = (s', PEnd) ->
      st_out s' = st_out s /\ (In (st_out s) (map fst (st_queue s')) ->
                               In (st_out s) (map fst (st_queue s)))).
    { clear. induction fuel as [|fuel IH]; intros order s s' E; [inversion E|]. cbn in E.
      destruct (poll_unordered p file order (st_run s)) as [[run rest] [[f rr]|]].
      - destruct (Nat.eqb_spec (fu_ix f) (st_out s)); [inversion E|].
        apply IH in E. cbn in E. destruct E as (E1 & E2). split; [exact E1|]. intros H.
        specialize (E2 H). rewrite map_app, in_app_iff in E2. cbn in E2.
        destruct E2 as [E2|[E2|[]]]; [exact E2|congruence].
      - destruct run; inversion E; subst. cbn. auto. }
    unfold ordered_next in N. destruct (heap_peek (st_queue s1)) as [[ix [op rr]]|] eqn:P.
    + destruct (Nat.eqb_spec ix (st_out s1)) as [_|Ne]; [inversion N|].
      destruct (LOOP _ _ _ _ N) as (L1 & L2). rewrite L1 in Iq. specialize (L2 Iq).
      destruct (heap_peek_spec _ _ P) as (PP & FL). cbn in FL.
      apply in_map_iff in L2. destruct L2 as (e & Ee & Ie).
      rewrite Forall_forall in FL. specialize (FL e Ie).
      assert (st_out s1 <= ix).
      { assert (Hin : In ix (map fu_ix (st_run s1) ++ map fst (st_queue s1))).
        { apply in_or_app. right. apply in_map_iff. exists (ix, (op, rr)). split; [reflexivity|].
          eapply Permutation_in; [apply Permutation_sym; exact PP|]. left. reflexivity. }
        eapply Permutation_in in Hin; [|exact (inv_ixs _ _ _ _ I1)]. apply in_seq in Hin. lia. }
      lia.
    + destruct (LOOP _ _ _ _ N) as (L1 & L2). rewrite L1 in Iq. specialize (L2 Iq).
      apply heap_peek_none in P. rewrite P in L2. destruct L2.
Qed.

(** ** Background completions *)

Lemma finish_spec : forall p file Q ops ix plan run, outcomes p file Q ->
  Forall (fut_ok p Q ops) run ->
  shape (finish p file ix plan run) = shape run
  /\ Forall (fut_ok p Q ops) (finish p file ix plan run).
Proof.
  intros p file Q ops ix plan run HQ F. unfold finish.
  destruct (find_fut ix run) as [f|] eqn:Ff; [|auto].
  destruct (fu_st f) as [| |r0] eqn:S0; auto.
  destruct (read_op_outcome p file (fu_op f) plan) as [r|] eqn:R; [|auto].
  split; [apply shape_set|]. apply set_fut_ok; [assumption|].
  intros g r1 Eg Er. rewrite Ff in Eg. inversion Eg; subst. inversion Er; subst.
  eapply HQ, read_op_outcome_of. eassumption.
Qed.

Lemma finish_inv : forall p file Q ops ix plan s, outcomes p file Q ->
  inv p Q ops s ->
  inv p Q ops (mkstream (st_src s) (st_done s) (finish p file ix plan (st_run s)) (st_queue s)
                    (st_in s) (st_out s)).
Proof.
  intros p file Q ops ix plan s HQ [Isrc Iin Iout Iixs Itwo Irun Iq Idone].
  destruct (finish_spec p file Q ops ix plan _ HQ Irun) as (SH & F).
  constructor; cbn [st_src st_done st_run st_queue st_in st_out]; auto.
  rewrite ixs_shape, SH, <- ixs_shape. exact Iixs.
Qed.

(** ** Progress *)

(** A finished future in the poll order is found. *)
Lemma poll_unordered_ready : forall order p file run run' rest res ix f r,
  poll_unordered p file order run = (run', rest, res) ->
  In ix (map fst order) -> find_fut ix run = Some f -> fu_st f = FReady r ->
  exists g rr, res = Some (g, rr)
    /\ (fu_ix g = ix \/ (fu_ix g <> ix /\ In ix (map fst rest) /\ find_fut ix run' = Some f)).
Proof.
  induction order as [|[j quick] order IH]; intros p file run run' rest res ix f r E I Ff Sf.
  { destruct I. }
  cbn [poll_unordered] in E. cbn [map fst] in I.
  destruct (Nat.eq_dec j ix) as [->|Ne].
  - rewrite Ff, Sf in E. inversion E; subst. exists f, r. split; [reflexivity|].
    left. apply (find_fut_ix _ _ _ Ff).
  - destruct I as [I|I]; [congruence|].
    assert (SK : find_fut ix (set_fut j FRunning run) = Some f).
    { rewrite find_fut_set. destruct (Nat.eqb_spec j ix); [congruence|exact Ff]. }
    destruct (find_fut j run) as [g|] eqn:Fg; [|eapply IH; eassumption].
    pose proof (proj1 (find_fut_ix _ _ _ Fg)) as Gj.
    assert (TAKE : forall rr, (drop_fut j run, order, Some (g, rr)) = (run', rest, res) ->
      exists g0 rr0, res = Some (g0, rr0)
        /\ (fu_ix g0 = ix \/ (fu_ix g0 <> ix /\ In ix (map fst rest) /\ find_fut ix run' = Some f))).
    { intros rr Eq. inversion Eq; subst. exists g, rr. split; [reflexivity|]. right.
      split; [congruence|]. split; [assumption|].
      rewrite find_fut_drop_other by congruence. exact Ff. }
    destruct (fu_st g) as [| |r0].
    + destruct quick as [plan|]; [|eapply IH; eassumption].
      destruct (read_op_outcome p file (fu_op g) plan); [eapply TAKE; exact E|eapply IH; eassumption].
    + destruct quick as [plan|]; [|eapply IH; eassumption].
      destruct (read_op_outcome p file (fu_op g) plan); [eapply TAKE; exact E|eapply IH; eassumption].
    + eapply TAKE. exact E.
Qed.

(** A future under way stays so until it is taken. *)
Lemma poll_unordered_keep : forall order p file run run' rest res ix f,
    poll_unordered p file order run = (run', rest, res) ->
    find_fut ix run = Some f -> fu_st f <> FNew ->
    match res with
    | Some (g, _) => fu_ix g = ix \/ exists f', find_fut ix run' = Some f' /\ fu_st f' <> FNew
    | None => exists f', find_fut ix run' = Some f' /\ fu_st f' <> FNew
    end.
Proof.
  induction order as [|[j quick] order IH]; intros p file run run' rest res ix f E Ff Sf.
    { inversion E; subst. eauto. }
    cbn [poll_unordered] in E. destruct (find_fut j run) as [g|] eqn:Fg; [|eapply IH; eassumption].
    pose proof (proj1 (find_fut_ix _ _ _ Fg)) as Gj.
    assert (TAKE : forall rr, (drop_fut j run, order, Some (g, rr)) = (run', rest, res) ->
      match res with
      | Some (g, _) => fu_ix g = ix \/ exists f', find_fut ix run' = Some f' /\ fu_st f' <> FNew
      | None => exists f', find_fut ix run' = Some f' /\ fu_st f' <> FNew
      end).
    { intros rr Eq. inversion Eq; subst. destruct (Nat.eq_dec (fu_ix g) ix); [left; assumption|right].
      exists f. rewrite find_fut_drop_other by assumption. auto. }
    assert (SKIP : poll_unordered p file order (set_fut j FRunning run) = (run', rest, res) ->
      match res with
      | Some (g, _) => fu_ix g = ix \/ exists f', find_fut ix run' = Some f' /\ fu_st f' <> FNew
      | None => exists f', find_fut ix run' = Some f' /\ fu_st f' <> FNew
      end).
    { intros E2. destruct (Nat.eqb_spec j ix) as [Ej|Ej].
      - eapply IH; [exact E2| |].
        + rewrite find_fut_set. rewrite (proj2 (Nat.eqb_eq j ix) Ej), Ff. reflexivity.
        + cbn. discriminate.
      - eapply IH; [exact E2| |exact Sf]. rewrite find_fut_set.
        rewrite (proj2 (Nat.eqb_neq j ix) Ej). exact Ff. }
    destruct (fu_st g) as [| |r0].
    + destruct quick as [plan|]; [|exact (SKIP E)].
      destruct (read_op_outcome p file (fu_op g) plan); [exact (TAKE _ E)|exact (SKIP E)].
    + destruct quick as [plan|]; [|exact (SKIP E)].
      destruct (read_op_outcome p file (fu_op g) plan); [exact (TAKE _ E)|exact (SKIP E)].
    + exact (TAKE _ E).
Qed.

(** A polled future is no longer new. *)
Lemma poll_unordered_polled : forall order p file run run' rest res ix f,
  poll_unordered p file order run = (run', rest, res) ->
  In ix (map fst order) -> find_fut ix run = Some f ->
  match res with
  | Some (g, _) =>
      fu_ix g = ix
      \/ (exists f', find_fut ix run' = Some f' /\ (fu_st f' <> FNew \/ In ix (map fst rest)))
  | None => exists f', find_fut ix run' = Some f' /\ fu_st f' <> FNew
  end.
Proof.
  induction order as [|[j quick] order IH]; intros p file run run' rest res ix f E I Ff.
  { destruct I. }
  cbn [poll_unordered] in E. cbn [map fst] in I.
  destruct (Nat.eq_dec j ix) as [->|Ne].
  - rewrite Ff in E.
    assert (TAKE : forall rr, (drop_fut ix run, order, Some (f, rr)) = (run', rest, res) ->
      match res with
      | Some (g, _) =>
          fu_ix g = ix
          \/ (exists f', find_fut ix run' = Some f' /\ (fu_st f' <> FNew \/ In ix (map fst rest)))
      | None => exists f', find_fut ix run' = Some f' /\ fu_st f' <> FNew
      end).
    { intros rr Eq. inversion Eq; subst. left. apply (find_fut_ix _ _ _ Ff). }
    assert (SKIP : poll_unordered p file order (set_fut ix FRunning run) = (run', rest, res) ->
      match res with
      | Some (g, _) =>
          fu_ix g = ix
          \/ (exists f', find_fut ix run' = Some f' /\ (fu_st f' <> FNew \/ In ix (map fst rest)))
      | None => exists f', find_fut ix run' = Some f' /\ fu_st f' <> FNew
      end).
    { intros E2.
      assert (Fs : find_fut ix (set_fut ix FRunning run) = Some (mkfut (fu_ix f) (fu_op f) FRunning)).
      { rewrite find_fut_set, Nat.eqb_refl, Ff. reflexivity. }
      pose proof (poll_unordered_keep _ _ _ _ _ _ _ ix _ E2 Fs ltac:(discriminate)) as K.
      destruct res as [[g rr]|]; [|exact K]. destruct K as [K|(f' & K1 & K2)]; [auto|]. right.
      exists f'. auto. }
    destruct (fu_st f) as [| |r0].
    + destruct quick as [plan|]; [|exact (SKIP E)].
      destruct (read_op_outcome p file (fu_op f) plan); [exact (TAKE _ E)|exact (SKIP E)].
    + destruct quick as [plan|]; [|exact (SKIP E)].
      destruct (read_op_outcome p file (fu_op f) plan); [exact (TAKE _ E)|exact (SKIP E)].
    + exact (TAKE _ E).
  - destruct I as [I|I]; [congruence|].
    assert (SK : find_fut ix (set_fut j FRunning run) = Some f).
    { rewrite find_fut_set. destruct (Nat.eqb_spec j ix); [congruence|exact Ff]. }
    destruct (find_fut j run) as [g|] eqn:Fg; [|eapply IH; eassumption].
    pose proof (proj1 (find_fut_ix _ _ _ Fg)) as Gj.
    assert (TAKE : forall rr, (drop_fut j run, order, Some (g, rr)) = (run', rest, res) ->
      match res with
      | Some (g, _) =>
          fu_ix g = ix
          \/ (exists f', find_fut ix run' = Some f' /\ (fu_st f' <> FNew \/ In ix (map fst rest)))
      | None => exists f', find_fut ix run' = Some f' /\ fu_st f' <> FNew
      end).
    { intros rr Eq. inversion Eq; subst. right. exists f.
      rewrite find_fut_drop_other by congruence. auto. }
    destruct (fu_st g) as [| |r0].
    + destruct quick as [plan|]; [|eapply IH; eassumption].
      destruct (read_op_outcome p file (fu_op g) plan); [eapply TAKE; exact E|eapply IH; eassumption].
    + destruct quick as [plan|]; [|eapply IH; eassumption].
      destruct (read_op_outcome p file (fu_op g) plan); [eapply TAKE; exact E|eapply IH; eassumption].
    + eapply TAKE. exact E.
Qed.

Lemma poll_unordered_length : forall order p file run run' rest res,
  poll_unordered p file order run = (run', rest, res) ->
  match res with
  | Some _ => length run = S (length run')
  | None => length run = length run'
  end.
Proof.
  assert (LS : forall ix st run, length (set_fut ix st run) = length run).
  { induction run as [|g run IH]; [reflexivity|]. cbn. destruct (fu_ix g =? ix); cbn; auto. }
  induction order as [|[j quick] order IH]; intros p file run run' rest res E.
  { inversion E; subst. reflexivity. }
  cbn [poll_unordered] in E. destruct (find_fut j run) as [g|] eqn:Fg; [|eapply IH; eassumption].
  pose proof (Permutation_length (find_fut_drop _ _ _ Fg)) as PL. cbn in PL.
  destruct (fu_st g) as [| |r0].
  - destruct quick as [plan|].
    + destruct (read_op_outcome p file (fu_op g) plan); [inversion E; subst; exact PL|].
      apply IH in E. rewrite LS in E. exact E.
    + apply IH in E. rewrite LS in E. exact E.
  - destruct quick as [plan|].
    + destruct (read_op_outcome p file (fu_op g) plan); [inversion E; subst; exact PL|].
      apply IH in E. rewrite LS in E. exact E.
    + apply IH in E. rewrite LS in E. exact E.
  - inversion E; subst. exact PL.
Qed.

(** The next request's read has finished and is polled: it is served. *)
Lemma poll_ordered_serves : forall fuel p file order s s' r f rr,
  poll_ordered fuel p file order s = (s', r) ->
  length (st_run s) < fuel ->
  In (st_out s) (map fst order) -> find_fut (st_out s) (st_run s) = Some f -> fu_st f = FReady rr ->
  exists it, r = PReady it.
Proof.
  induction fuel as [|fuel IH]; intros p file order s s' r f rr E L I Ff Sf; [lia|].
  cbn [poll_ordered] in E.
  destruct (poll_unordered p file order (st_run s)) as [[run rest] res] eqn:U.
  pose proof (poll_unordered_length _ _ _ _ _ _ _ U) as PL.
  destruct (poll_unordered_ready _ _ _ _ _ _ _ _ _ _ U I Ff Sf) as (g & gr & -> & H).
  destruct H as [H|(H1 & H2 & H3)].
  - rewrite (proj2 (Nat.eqb_eq _ _) H) in E. inversion E; subst. eauto.
  - rewrite (proj2 (Nat.eqb_neq _ _) H1) in E.
    eapply IH; [exact E| | | |exact Sf]; cbn; [lia|exact H2|exact H3].
Qed.

(** The next request is polled: it is served, or its read is under way. *)
Lemma poll_ordered_starts : forall fuel p file order s s' r f,
  poll_ordered fuel p file order s = (s', r) ->
  length (st_run s) < fuel ->
  find_fut (st_out s) (st_run s) = Some f ->
  fu_st f <> FNew \/ In (st_out s) (map fst order) ->
  (exists it, r = PReady it)
  \/ (r = PPending /\ st_out s' = st_out s
      /\ exists f', find_fut (st_out s') (st_run s') = Some f' /\ fu_st f' <> FNew).
Proof.
  induction fuel as [|fuel IH]; intros p file order s s' r f E L Ff H; [lia|].
  cbn [poll_ordered] in E.
  destruct (poll_unordered p file order (st_run s)) as [[run rest] res] eqn:U.
  pose proof (poll_unordered_length _ _ _ _ _ _ _ U) as PL.
  assert (X : match res with
    | Some (g, _) =>
        fu_ix g = st_out s
        \/ (exists f', find_fut (st_out s) run = Some f'
                       /\ (fu_st f' <> FNew \/ In (st_out s) (map fst rest)))
    | None => exists f', find_fut (st_out s) run = Some f' /\ fu_st f' <> FNew
    end).
  { destruct H as [H|H].
    - pose proof (poll_unordered_keep _ _ _ _ _ _ _ _ _ U Ff H) as K. destruct res as [[g gr]|]; [|exact K].
      destruct K as [K|(f' & K1 & K2)]; [auto|]. right. exists f'. auto.
    - eapply poll_unordered_polled; eassumption. }
  destruct res as [[g gr]|].
  - destruct (Nat.eqb_spec (fu_ix g) (st_out s)) as [Eq|Ne].
    + inversion E; subst. left. eauto.
    + destruct X as [X|(f' & X1 & X2)]; [congruence|].
      specialize (IH _ _ _ _ _ _ f' E). cbn [st_run st_out] in IH.
      specialize (IH ltac:(lia) X1 X2). exact IH.
  - destruct X as (f' & X1 & X2). inversion E; subst. right. cbn.
    destruct run as [|g0 run]; [discriminate|]. split; [reflexivity|]. split; [reflexivity|]. eauto.
Qed.
