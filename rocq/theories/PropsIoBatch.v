(** C42: batched reads. *)
From Coq Require Import Permutation.
From Verif Require Import Base Io IoReadProofs PropsIo IoStreamProofs.
Open Scope nat_scope.

(** The items a consumer received, in order. *)
Fixpoint items_of (rs : list poll_result) : list block_item :=
  match rs with
  | [] => []
  | PReady it :: rest => it :: items_of rest
  | _ :: rest => items_of rest
  end.

(** An item answers a request: it carries the request's tag and what reading the
    request's own range gave. *)
Definition answers (p : profile) (file : list N) (op : read_op) (it : block_item) : Prop :=
  bi_tag it = op_tag op
  /\ exists plan, read_block p file plan (op_start op) (op_end op) = Ret (bi_buf it).

(** Blocking reads started and not finished. *)
Definition outstanding (s : stream) : nat :=
  length (filter (fun f => match fu_st f with FRunning => true | _ => false end) (st_run s)).

Lemma items_of_app : forall a b, items_of (a ++ b) = items_of a ++ items_of b.
Proof. induction a as [|x a IH]; intros b; [reflexivity|]. destruct x; cbn; rewrite IH; reflexivity. Qed.

Lemma stream_run_spec : forall es p file ops s s' rs,
  stream_run p file s es = (s', rs) -> inv p (outcome_of p file) ops s ->
  inv p (outcome_of p file) ops s' /\ st_out s' = st_out s + length (items_of rs)
  /\ Forall2 (answers p file) (firstn (length (items_of rs)) (skipn (st_out s) ops)) (items_of rs)
  /\ (In PEnd rs -> st_out s' = length ops).
Proof.
  induction es as [|e es IH]; intros p file ops s s' rs E I; cbn [stream_run] in E.
  { inversion E; subst. cbn. split; [assumption|]. split; [lia|]. split; [constructor|]. intros []. }
  destruct (stream_step p file s e) as [s1 r1] eqn:S1.
  destruct (stream_run p file s1 es) as [s2 r2] eqn:S2. inversion E; subst s' rs; clear E.
  destruct e as [ix plan|order]; cbn [stream_step] in S1.
  - inversion S1; subst s1 r1; clear S1. cbn [app].
    apply (finish_inv p file (outcome_of p file) ops ix plan _ (fun _ _ H => H)) in I. destruct (IH _ _ _ _ _ _ S2 I) as (A & B & C & D).
    split; [exact A|]. split; [exact B|]. split; [exact C|]. exact D.
  - destruct (poll_stream p file order s) as [s3 r] eqn:P. inversion S1; subst s1 r1; clear S1.
    destruct (poll_stream_spec _ _ (outcome_of p file) _ _ _ _ _ (fun _ _ H => H) P I) as (I3 & G).
    destruct (IH _ _ _ _ _ _ S2 I3) as (A & B & C & D). cbn [app].
    pose proof (inv_in _ _ _ _ A). pose proof (inv_out _ _ _ _ A).
    destruct r as [it| |]; cbn [items_of length In].
    + destruct G as (G1 & op & G2 & G3). split; [exact A|]. split; [lia|].
      split; [|intros [Z|Z]; [discriminate|auto]].
      rewrite G1 in C.
      assert (SK : skipn (st_out s) ops = op :: skipn (S (st_out s)) ops).
      { clear -G2. revert G2. generalize (st_out s) as n. revert ops.
        induction ops as [|o ops IH]; intros [|n] E; cbn in *; try discriminate.
        - inversion E; reflexivity.
        - apply IH. exact E. }
      rewrite SK. cbn [firstn]. constructor; [exact G3|exact C].
    + rewrite G in *. split; [exact A|]. split; [exact B|]. split; [exact C|].
      intros [Z|Z]; [discriminate|auto].
    + destruct G as (G1 & G2). rewrite G1 in *. split; [exact A|]. split; [exact B|]. split; [exact C|].
      intros _. lia.
Qed.

(** Whatever the schedule, what the consumer has received so far is the answers
    to the first requests, in request order, one each. *)
Theorem C42_in_order : forall p file ops es s rs,
  stream_run p file (read_blocks ops) es = (s, rs) ->
  Forall2 (answers p file) (firstn (length (items_of rs)) ops) (items_of rs).
Proof.
  intros p file ops es s rs E.
  destruct (stream_run_spec _ _ _ ops _ _ _ E (inv_start p (outcome_of p file) ops)) as (_ & _ & F & _). exact F.
Qed.
Print Assumptions C42_in_order.

(** When the stream reports its end, every request has been answered. *)
Theorem C42_end_means_all : forall p file ops es s rs,
  stream_run p file (read_blocks ops) es = (s, rs) -> In PEnd rs ->
  Forall2 (answers p file) ops (items_of rs).
Proof.
  intros p file ops es s rs E H.
  destruct (stream_run_spec _ _ _ ops _ _ _ E (inv_start p (outcome_of p file) ops)) as (_ & O & F & D).
  specialize (D H). cbn in O. rewrite <- O, D in F. cbn [read_blocks st_out skipn] in F.
  rewrite firstn_all in F. exact F.
Qed.
Print Assumptions C42_end_means_all.

(** At any moment of any schedule at most two reads are outstanding. *)
Theorem C42_at_most_two : forall p file ops es s rs,
  stream_run p file (read_blocks ops) es = (s, rs) -> outstanding s <= 2.
Proof.
  intros p file ops es s rs E.
  destruct (stream_run_spec _ _ _ ops _ _ _ E (inv_start p (outcome_of p file) ops)) as (I & _).
  pose proof (inv_count _ _ _ _ I). pose proof (inv_two _ _ _ _ I). unfold BLOCK_BUFFER_SIZE in *.
  unfold outstanding.
  assert (L : forall l : list fut, length (filter
     (fun f => match fu_st f with FRunning => true | _ => false end) l) <= length l).
  { induction l as [|x l IH]; [cbn; lia|]. cbn. destruct (fu_st x); cbn; lia. }
  specialize (L (st_run s)). lia.
Qed.
Print Assumptions C42_at_most_two.

(** ** Progress *)

(** The request to be answered next is waiting in the queue, or its read is
    under way. *)
Definition warm (s : stream) : Prop :=
  In (st_out s) (map fst (st_queue s))
  \/ exists f, find_fut (st_out s) (st_run s) = Some f /\ fu_st f <> FNew.

(** ... or waiting or finished. *)
Definition hot (s : stream) : Prop :=
  In (st_out s) (map fst (st_queue s))
  \/ exists f r, find_fut (st_out s) (st_run s) = Some f /\ fu_st f = FReady r.

Definition covers (n : nat) (order : list (nat * option (list pread_event))) : Prop :=
  forall ix, ix < n -> In ix (map fst order).

Lemma find_fut_app : forall a b ix f, find_fut ix a = Some f -> find_fut ix (a ++ b) = Some f.
Proof.
  induction a as [|g a IH]; intros b ix f E; [discriminate|]. cbn in *.
  destruct (fu_ix g =? ix); [exact E|]. apply IH. exact E.
Qed.

Lemma peek_next : forall p file ops s,
  inv p (outcome_of p file) ops s -> In (st_out s) (map fst (st_queue s)) ->
  exists op r, heap_peek (st_queue s) = Some (st_out s, (op, r)).
Proof.
  intros p file ops s I H. destruct (heap_peek (st_queue s)) as [[ix [op r]]|] eqn:P.
  - exists op, r. destruct (heap_peek_spec _ _ P) as (PP & FL). cbn in FL.
    apply in_map_iff in H. destruct H as (e & Ee & Ie). rewrite Forall_forall in FL.
    specialize (FL e Ie).
    assert (Hin : In ix (map fu_ix (st_run s) ++ map fst (st_queue s))).
    { apply in_or_app. right. apply in_map_iff. exists (ix, (op, r)). split; [reflexivity|].
      eapply Permutation_in; [apply Permutation_sym; exact PP|]. left. reflexivity. }
    eapply Permutation_in in Hin; [|exact (inv_ixs _ _ _ _ I)]. apply in_seq in Hin.
    assert (ix = st_out s) as -> by lia. reflexivity.
  - apply heap_peek_none in P. rewrite P in H. destruct H.
Qed.

Lemma poll_progress : forall p file ops order s s' r,
  poll_stream p file order s = (s', r) -> inv p (outcome_of p file) ops s -> covers (length ops) order ->
  (hot s -> exists it, r = PReady it)
  /\ ((exists it, r = PReady it) \/ (r = PPending /\ warm s' /\ st_out s' = st_out s)
      \/ (r = PEnd /\ st_out s = length ops)).
Proof.
  intros p file ops order s s' r E I C. pose proof E as E0. unfold poll_stream in E.
  destruct (fill_inv (S BLOCK_BUFFER_SIZE) p (outcome_of p file) ops s I) as (I1 & O1 & Q1 & (more & R1) & _ & D1).
  set (s1 := fill (S BLOCK_BUFFER_SIZE) s) in *.
  destruct (ordered_next p file order s1) as [s2 r2] eqn:N. unfold ordered_next in N.
  pose proof (inv_in _ _ _ _ I1) as Hin. pose proof (inv_out _ _ _ _ I1) as Hout.
  assert (CASES : In (st_out s1) (map fst (st_queue s1))
                  \/ (exists f, find_fut (st_out s1) (st_run s1) = Some f)
                  \/ st_out s1 = st_in s1).
  { destruct (Nat.eq_dec (st_out s1) (st_in s1)); [auto|].
    assert (Hi : In (st_out s1) (map fu_ix (st_run s1) ++ map fst (st_queue s1))).
    { eapply Permutation_in; [apply Permutation_sym; exact (inv_ixs _ _ _ _ I1)|]. apply in_seq. lia. }
    apply in_app_or in Hi. destruct Hi as [Hi|Hi]; [|auto]. right. left. apply find_fut_in. exact Hi. }
  assert (QUEUED : In (st_out s1) (map fst (st_queue s1)) -> exists it, r = PReady it).
  { intros H. destruct (peek_next _ _ _ _ I1 H) as (op & rr & P). rewrite P in N.
    rewrite Nat.eqb_refl in N. inversion N; subst. inversion E; subst. eauto. }
  assert (LOOP : ~ In (st_out s1) (map fst (st_queue s1)) ->
    poll_ordered (S (length (st_run s1))) p file order s1 = (s2, r2)).
  { intros H. destruct (heap_peek (st_queue s1)) as [[ix [op rr]]|] eqn:P; [|exact N].
    destruct (Nat.eqb_spec ix (st_out s1)) as [Ei|Ei]; [|exact N]. exfalso. apply H.
    destruct (heap_peek_spec _ _ P) as (PP & _). apply in_map_iff.
    exists (ix, (op, rr)). split; [exact Ei|].
    eapply Permutation_in; [apply Permutation_sym; exact PP|]. left. reflexivity. }
  destruct (in_dec Nat.eq_dec (st_out s1) (map fst (st_queue s1))) as [Q|NQ].
  { split; [intros _|left]; auto. }
  specialize (LOOP NQ).
  assert (COV : forall f, find_fut (st_out s1) (st_run s1) = Some f -> In (st_out s1) (map fst order)).
  { intros f Ff. apply C. destruct (find_fut_ix _ _ _ Ff) as (Ei & Inf).
    pose proof (inv_run _ _ _ _ I1) as FR. rewrite Forall_forall in FR.
    destruct (FR f Inf) as (Nth & _). rewrite Ei in Nth. apply nth_error_Some. congruence. }
  split.
  - intros [H|(f & rr & Ff & Sf)]; [rewrite Q1, O1 in NQ; contradiction|].
    assert (F1 : find_fut (st_out s1) (st_run s1) = Some f).
    { rewrite O1, R1. apply find_fut_app. exact Ff. }
    destruct (poll_ordered_serves _ _ _ _ _ _ _ f rr LOOP (le_n _) (COV _ F1) F1 Sf) as (it & Er).
    subst r2. inversion E; subst. eauto.
  - destruct CASES as [Q|[(f & Ff)|Eq]]; [contradiction| |].
    + destruct (poll_ordered_starts _ _ _ _ _ _ _ f LOOP (le_n _) Ff (or_intror (COV _ Ff)))
        as [(it & ->)|(-> & O2 & f' & F2 & S2)].
      * inversion E; subst. eauto.
      * inversion E; subst. right. left. split; [reflexivity|]. split; [right; eauto|]. congruence.
    + (* nothing started: the source is empty and the poll reports the end *)
      destruct D1 as (Src & Dn).
      { unfold BLOCK_BUFFER_SIZE. pose proof (inv_out _ _ _ _ I). lia. }
      { lia. }
      pose proof (inv_count _ _ _ _ I1) as Cn.
      assert (st_run s1 = []) as Rn by (apply length_zero_iff_nil; lia).
      cbn [poll_ordered] in LOOP.
      assert (PU : poll_unordered p file order (st_run s1) = ([], [], None)).
      { rewrite Rn. clear. induction order as [|[j q] order IH]; [reflexivity|]. cbn. exact IH. }
      rewrite PU in LOOP. inversion LOOP; subst s2 r2; clear LOOP. cbn [st_done] in E.
      rewrite Dn in E. inversion E; subst. right. right. split; [reflexivity|].
      assert (length ops <= st_in s1).
      { rewrite (inv_src _ _ _ _ I1) in Src. apply (f_equal (@length _)) in Src.
        rewrite skipn_length in Src. cbn [length] in Src. lia. }
      lia.
Qed.

(** Once every outstanding read has finished, a poll that looks at every future
    answers a request, starts a read, or reports the end. *)
Theorem C42_progress : forall p file ops es s rs order s' r,
  stream_run p file (read_blocks ops) es = (s, rs) ->
  outstanding s = 0 -> covers (length ops) order ->
  poll_stream p file order s = (s', r) ->
  (exists it, r = PReady it) \/ r = PEnd \/ (r = PPending /\ 0 < outstanding s').
Proof.
  intros p file ops es s rs order s' r E Z C P.
  destruct (stream_run_spec _ _ _ ops _ _ _ E (inv_start p (outcome_of p file) ops)) as (I & _).
  destruct (poll_progress _ _ _ _ _ _ _ P I C) as (_ & [H|[(-> & W & O)|(-> & _)]]); auto.
  right. right. split; [reflexivity|].
  destruct (poll_stream_spec _ _ (outcome_of p file) _ _ _ _ _ (fun _ _ H => H) P I) as (I' & _).
  destruct W as [W|(f & Ff & Sf)].
  - (* a queued answer would have been given *)
    exfalso. destruct (poll_progress _ _ _ _ _ _ _ P I C) as (Hh & _).
    assert (NH : ~ hot s).
    { intros H. destruct (Hh H) as (it & Z2). discriminate. }
    clear Hh. apply NH. clear NH.
    (* only finished futures other than the next one enter the queue *)
    unfold poll_stream in P.
    destruct (fill_inv (S BLOCK_BUFFER_SIZE) p (outcome_of p file) ops s I) as (I1 & O1 & Q1 & (more & R1) & _).
    set (s1 := fill (S BLOCK_BUFFER_SIZE) s) in *.
    destruct (ordered_next p file order s1) as [s2 r2] eqn:N. unfold ordered_next in N.
    assert (LP : forall fuel order s s' r, poll_ordered fuel p file order s = (s', r) ->
      (forall it, r <> PReady it) ->
      st_out s' = st_out s /\ (In (st_out s) (map fst (st_queue s')) ->
                               In (st_out s) (map fst (st_queue s)))).
    { clear. induction fuel as [|fuel IH]; intros order s s' r E NR; [inversion E; subst; auto|].
      cbn in E.
      destruct (poll_unordered p file order (st_run s)) as [[run rest] [[f rr]|]].
      - destruct (Nat.eqb_spec (fu_ix f) (st_out s)); [inversion E; subst; destruct (NR _ eq_refl)|].
        apply IH in E; [|exact NR]. cbn in E. destruct E as (E1 & E2). split; [exact E1|]. intros H.
        specialize (E2 H). rewrite map_app, in_app_iff in E2. cbn in E2.
        destruct E2 as [E2|[E2|[]]]; [exact E2|congruence].
      - inversion E; subst. cbn. auto. }
    assert (NRr : forall it, r2 <> PReady it) by (intros it ->; inversion P).
    assert (S2 : s' = s2) by (destruct r2; inversion P; reflexivity). subst s2.
    left. rewrite <- O1, <- Q1. rewrite O, <- O1 in W.
    destruct (heap_peek (st_queue s1)) as [[ix [op rr]]|] eqn:Pk.
    + destruct (Nat.eqb_spec ix (st_out s1)).
      * inversion N; subst. destruct (NRr _ eq_refl).
      * destruct (LP _ _ _ _ _ N NRr) as (_ & L2). auto.
    + destruct (LP _ _ _ _ _ N NRr) as (_ & L2). auto.
  - destruct (fu_st f) as [| |rr] eqn:Sf'; [congruence| |].
    + destruct (find_fut_ix _ _ _ Ff) as (_ & Inf). unfold outstanding.
      assert (In f (filter (fun f => match fu_st f with FRunning => true | _ => false end) (st_run s')))
        as Fi by (apply filter_In; split; [exact Inf|rewrite Sf'; reflexivity]).
      destruct (filter _ (st_run s')); [destruct Fi|cbn; lia].
    + (* finished but not answered: impossible, it was polled *)
      exfalso. destruct (poll_progress _ _ _ _ _ _ _ P I C) as (Hh & _).
      assert (NH : ~ hot s).
      { intros H. destruct (Hh H) as (it & Z2). discriminate. }
      apply NH. clear Hh NH. unfold poll_stream in P.
      destruct (fill_inv (S BLOCK_BUFFER_SIZE) p (outcome_of p file) ops s I) as (I1 & O1 & Q1 & (more & R1) & _).
      assert (FN : forall g r, In g (st_run (fill (S BLOCK_BUFFER_SIZE) s)) -> fu_st g = FReady r ->
                     In g (st_run s)).
      { clear. generalize (S BLOCK_BUFFER_SIZE) as fuel. intros fuel. revert s.
        induction fuel as [|fuel IH]; intros s g r Ig Sg; [exact Ig|]. cbn [fill] in Ig.
        destruct (_ <? _); [|exact Ig]. destruct (st_src s) as [|op rest]; [exact Ig|].
        apply IH with (r := r) in Ig; [|exact Sg]. cbn in Ig. apply in_app_or in Ig.
        destruct Ig as [Ig|[Ig|[]]]; [exact Ig|]. subst g. discriminate. }
      set (s1 := fill (S BLOCK_BUFFER_SIZE) s) in *.
      destruct (ordered_next p file order s1) as [s2 r2] eqn:N. unfold ordered_next in N.
      assert (NRr : forall it, r2 <> PReady it) by (intros it ->; inversion P).
      assert (S2 : s' = s2) by (destruct r2; inversion P; reflexivity). subst s2.
      assert (PUR : forall order run run' rest res g r,
        poll_unordered p file order run = (run', rest, res) -> In g run' -> fu_st g = FReady r -> In g run).
      { clear. assert (SF : forall ix g r run, In g (set_fut ix FRunning run) -> fu_st g = FReady r -> In g run).
        { induction run as [|h run IH]; intros Ig Sg; [destruct Ig|]. cbn in Ig.
          destruct (fu_ix h =? ix); destruct Ig as [Ig|Ig].
          - subst g. discriminate.
          - right. exact Ig.
          - left. exact Ig.
          - right. auto. }
        assert (DF : forall ix g run, In g (drop_fut ix run) -> In g run).
        { induction run as [|h run IH]; intros Ig; [destruct Ig|]. cbn in Ig.
          destruct (fu_ix h =? ix); [right; exact Ig|]. destruct Ig as [Ig|Ig]; [left; exact Ig|right; auto]. }
        induction order as [|[j q] order IH]; intros run run' rest res g r E Ig Sg.
        { inversion E; subst. exact Ig. }
        cbn [poll_unordered] in E. destruct (find_fut j run) as [h|]; [|eapply IH; eassumption].
        destruct (fu_st h) as [| |rh].
        - destruct q as [plan|].
          + destruct (read_op_outcome p file (fu_op h) plan); [inversion E; subst; eapply DF; eassumption|].
            eapply SF; [eapply IH; eassumption|exact Sg].
          + eapply SF; [eapply IH; eassumption|exact Sg].
        - destruct q as [plan|].
          + destruct (read_op_outcome p file (fu_op h) plan); [inversion E; subst; eapply DF; eassumption|].
            eapply SF; [eapply IH; eassumption|exact Sg].
          + eapply SF; [eapply IH; eassumption|exact Sg].
        - inversion E; subst. eapply DF; eassumption. }
      assert (POR : forall fuel order s s' r g rg, poll_ordered fuel p file order s = (s', r) ->
        In g (st_run s') -> fu_st g = FReady rg -> In g (st_run s)).
      { clear -PUR. induction fuel as [|fuel IH]; intros order s s' r g rg E Ig Sg; [inversion E; subst; exact Ig|].
        cbn [poll_ordered] in E.
        destruct (poll_unordered p file order (st_run s)) as [[run rest] [[f rr]|]] eqn:U.
        - destruct (fu_ix f =? st_out s).
          + inversion E; subst. eapply PUR; eassumption.
          + apply IH with (g := g) (rg := rg) in E; [|exact Ig|exact Sg]. cbn in E. eapply PUR; eassumption.
        - inversion E; subst. eapply PUR; eassumption. }
      destruct (find_fut_ix _ _ _ Ff) as (Ei & Inf).
      assert (In f (st_run s1)) as If1.
      { destruct (heap_peek (st_queue s1)) as [[ix [op r3]]|] eqn:Pk.
        - destruct (Nat.eqb_spec ix (st_out s1)).
          + inversion N; subst. destruct (NRr _ eq_refl).
          + eapply POR; eassumption.
        - eapply POR; eassumption. }
      pose proof (FN _ _ If1 Sf') as If0. right.
      assert (In (st_out s) (map fu_ix (st_run s))) as Ij.
      { apply in_map_iff. exists f. split; [congruence|exact If0]. }
      destruct (find_fut_in _ _ Ij) as (f0 & Ff0). exists f0, rr. split; [exact Ff0|].
      (* indices are distinct, so it is the same future *)
      assert (ND : NoDup (map fu_ix (st_run s))).
      { pose proof (Permutation_NoDup (Permutation_sym (inv_ixs _ _ _ _ I)) (seq_NoDup _ _)) as ND.
        clear -ND. induction (map fu_ix (st_run s)) as [|x l IH]; [constructor|].
        cbn in ND. inversion ND; subst. constructor; [|auto]. intros Hx. apply H1. apply in_or_app. auto. }
      destruct (find_fut_ix _ _ _ Ff0) as (Ei0 & If00).
      assert (f0 = f) as ->; [|exact Sf'].
      clear -ND If0 If00 Ei Ei0 O. induction (st_run s) as [|h l IH]; [destruct If0|].
      cbn in ND. inversion ND; subst. destruct If0 as [->|If0]; destruct If00 as [->|If00]; auto.
      * exfalso. apply H1. apply in_map_iff. exists f0. split; [congruence|exact If00].
      * exfalso. apply H1. apply in_map_iff. exists f. split; [congruence|exact If0].
Qed.
Print Assumptions C42_progress.

(** Every batch is answered completely under any fair schedule: if in every
    round all running reads finish and then the consumer polls, [2n + 1] rounds
    answer [n] requests and reach the end, whatever the reads return and in
    whatever order futures are polled. *)
Definition round (n : nat) (plans : nat -> list pread_event)
    (order : list (nat * option (list pread_event))) : list stream_event :=
  map (fun ix => EFinish ix (plans ix)) (seq 0 n) ++ [EPoll order].

Definition op_ok (op : read_op) : Prop := (op_start op < u64_lim /\ op_end op < u64_lim)%N.

Lemma stream_run_app : forall a b p file s,
  stream_run p file s (a ++ b) =
  let '(s1, r1) := stream_run p file s a in
  let '(s2, r2) := stream_run p file s1 b in (s2, r1 ++ r2).
Proof.
  induction a as [|e a IH]; intros b p file s.
  - cbn. destruct (stream_run p file s b). reflexivity.
  - cbn [app stream_run]. destruct (stream_step p file s e) as [s1 r1]. rewrite IH.
    destruct (stream_run p file s1 a) as [s2 r2]. destruct (stream_run p file s2 b) as [s3 r3].
    rewrite app_assoc. reflexivity.
Qed.

Lemma finish_all : forall ixs plans p file ops s s' rs,
  stream_run p file s (map (fun ix => EFinish ix (plans ix)) ixs) = (s', rs) ->
  inv p (outcome_of p file) ops s -> file_ok file -> Forall op_ok ops ->
  rs = [] /\ inv p (outcome_of p file) ops s' /\ st_out s' = st_out s /\ st_queue s' = st_queue s
  /\ (forall ix f, find_fut ix (st_run s) = Some f ->
        exists f', find_fut ix (st_run s') = Some f'
          /\ (forall r, fu_st f = FReady r -> fu_st f' = FReady r)
          /\ (In ix ixs -> fu_st f = FRunning -> exists r, fu_st f' = FReady r)
          /\ (fu_st f <> FNew -> fu_st f' <> FNew)).
Proof.
  induction ixs as [|i ixs IH]; intros plans p file ops s s' rs E I Fo Oo.
  { inversion E; subst. split; [reflexivity|]. split; [exact I|]. split; [reflexivity|].
    split; [reflexivity|]. intros ix f Ff. exists f. split; [exact Ff|]. split; [auto|].
    split; [intros []|auto]. }
  cbn [map stream_run stream_step] in E.
  pose proof (finish_inv p file (outcome_of p file) ops i (plans i) s (fun _ _ H => H) I) as I1.
  set (s1 := mkstream (st_src s) (st_done s) (finish p file i (plans i) (st_run s)) (st_queue s)
               (st_in s) (st_out s)) in *.
  destruct (stream_run p file s1 (map (fun ix => EFinish ix (plans ix)) ixs)) as [s2 r2] eqn:R.
  inversion E; subst s' rs; clear E.
  destruct (IH _ _ _ _ _ _ _ R I1 Fo Oo) as (-> & I2 & O2 & Q2 & K).
  split; [reflexivity|]. split; [exact I2|]. split; [exact O2|]. split; [exact Q2|].
  intros ix f Ff.
  assert (ONE : exists f1, find_fut ix (st_run s1) = Some f1
    /\ (forall r, fu_st f = FReady r -> fu_st f1 = FReady r)
    /\ (i = ix -> fu_st f = FRunning -> exists r, fu_st f1 = FReady r)
    /\ (fu_st f = FRunning -> fu_st f1 = FRunning \/ exists r, fu_st f1 = FReady r)).
  { unfold s1. cbn [st_run]. unfold finish. destruct (find_fut i (st_run s)) as [g|] eqn:Fg.
    - assert (Og : exists r, read_op_outcome p file (fu_op g) (plans i) = Some r).
      { destruct (find_fut_ix _ _ _ Fg) as (_ & Ig). pose proof (inv_run _ _ _ _ I) as FR.
        rewrite Forall_forall in FR. destruct (FR g Ig) as (Ng & _). apply nth_error_In in Ng.
        rewrite Forall_forall in Oo. destruct (Oo _ Ng) as (B1 & B2).
        destruct (C41_never_other_bytes p file (plans i) _ _ Fo B1 B2) as (r & Er & _).
        exists r. unfold read_op_outcome. rewrite Er. reflexivity. }
      destruct Og as (r & Or). rewrite Or.
      destruct (fu_st g) eqn:Sg.
      + exists f. split; [exact Ff|]. split; [auto|]. split; [|auto]. intros -> S2. congruence.
      + rewrite find_fut_set. destruct (Nat.eqb_spec i ix) as [->|Ne].
        * rewrite Ff. cbn. eexists. split; [reflexivity|]. cbn. split; [|eauto].
          intros r0 S0. congruence.
        * exists f. split; [exact Ff|]. split; [auto|]. split; [congruence|auto].
      + exists f. split; [exact Ff|]. split; [auto|]. split; [|auto]. intros -> S2. congruence.
    - exists f. split; [exact Ff|]. split; [auto|]. split; [|auto]. intros -> S2. congruence. }
  destruct ONE as (f1 & F1 & A1 & A2 & A3). destruct (K _ _ F1) as (f2 & F2 & B1 & B2 & B3).
  exists f2. split; [exact F2|]. split; [auto|]. split.
  - intros [->|Hi] Sr.
    + destruct (A2 eq_refl Sr) as (r & S1). eauto.
    + destruct (A3 Sr) as [S1|(r & S1)]; eauto.
  - intros Nn. apply B3. destruct (fu_st f) as [| |r] eqn:Sf; [congruence| |].
    + destruct (A3 eq_refl) as [S1|(r & S1)]; rewrite S1; discriminate.
    + rewrite (A1 r eq_refl). discriminate.
Qed.

Lemma rounds_reach_end : forall orders plans p file ops s,
  inv p (outcome_of p file) ops s -> file_ok file -> Forall op_ok ops ->
  Forall (covers (length ops)) orders ->
  (2 * (length ops - st_out s) + 1 <= length orders
   \/ (warm s /\ 2 * (length ops - st_out s) <= length orders)) ->
  In PEnd (snd (stream_run p file s (concat (map (round (length ops) plans) orders)))).
Proof.
  induction orders as [|order orders IH]; intros plans p file ops s I Fo Oo Co M.
  { exfalso. cbn in M. destruct M as [M|(W & M)]; [lia|].
    assert (Lt : st_out s < length ops); [|lia].
    pose proof (inv_in _ _ _ _ I).
    assert (Hi : In (st_out s) (map fu_ix (st_run s) ++ map fst (st_queue s))).
    { apply in_or_app. destruct W as [W|(f & Ff & _)]; [right; exact W|left].
      destruct (find_fut_ix _ _ _ Ff) as (Ei & If). apply in_map_iff. exists f. auto. }
    eapply Permutation_in in Hi; [|exact (inv_ixs _ _ _ _ I)]. apply in_seq in Hi. lia. }
  apply Forall_cons_iff in Co. destruct Co as [C Co].
  cbn [map concat]. unfold round at 1. rewrite <- app_assoc, stream_run_app.
  destruct (stream_run p file s (map (fun ix => EFinish ix (plans ix)) (seq 0 (length ops))))
    as [s1 r1] eqn:R1.
  destruct (finish_all _ _ _ _ _ _ _ _ R1 I Fo Oo) as (-> & I1 & O1 & Q1 & K).
  cbn [app stream_run stream_step].
  destruct (poll_stream p file order s1) as [s2 r] eqn:P.
  destruct (stream_run p file s2 (concat (map (round (length ops) plans) orders))) as [s3 r3] eqn:R3.
  destruct (poll_progress _ _ _ _ _ _ _ P I1 C) as (HH & PG).
  destruct (poll_stream_spec _ _ (outcome_of p file) _ _ _ _ _ (fun _ _ H => H) P I1) as (I2 & G).
  assert (HW : warm s -> hot s1).
  { intros [W|(f & Ff & Sf)]; [left; rewrite Q1, O1; exact W|right].
    destruct (K _ _ Ff) as (f' & F' & K1 & K2 & K3). rewrite O1. exists f'.
    destruct (fu_st f) as [| |rr] eqn:Sf'; [congruence| |].
    - destruct K2 as (rr & S'); [|reflexivity|].
      + apply in_seq. destruct (find_fut_ix _ _ _ Ff) as (Ei & If).
        pose proof (inv_run _ _ _ _ I) as FR. rewrite Forall_forall in FR.
        destruct (FR f If) as (Nth & _). rewrite Ei in Nth.
        assert (st_out s < length ops) by (apply nth_error_Some; congruence). lia.
      + exists rr. auto.
    - exists rr. split; [exact F'|]. auto. }
  cbn [snd app]. specialize (IH plans p file ops s2 I2 Fo Oo Co). rewrite R3 in IH. cbn [snd] in IH.
  destruct PG as [(it & ->)|[(-> & W2 & O2)|(-> & _)]].
  - right. destruct G as (G & _). apply IH. left. cbn [length] in M.
    assert (st_out s < length ops).
    { pose proof (inv_in _ _ _ _ I2). pose proof (inv_out _ _ _ _ I2). lia. }
    destruct M as [M|(_ & M)]; lia.
  - right. apply IH. right. split; [exact W2|]. cbn [length] in M. rewrite O2, O1.
    destruct M as [M|(W & M)]; [lia|]. destruct (HH (HW W)) as (it & Z). discriminate.
  - left. reflexivity.
Qed.

Theorem C42_everything_answered : forall p file ops plans orders,
  file_ok file -> Forall op_ok ops ->
  Forall (covers (length ops)) orders -> 2 * length ops + 1 <= length orders ->
  exists s rs,
    stream_run p file (read_blocks ops) (concat (map (round (length ops) plans) orders)) = (s, rs)
    /\ In PEnd rs /\ Forall2 (answers p file) ops (items_of rs).
Proof.
  intros p file ops plans orders Fo Oo Co L.
  destruct (stream_run p file (read_blocks ops) (concat (map (round (length ops) plans) orders)))
    as [s rs] eqn:R.
  exists s, rs. split; [reflexivity|].
  assert (HE : In PEnd rs).
  { pose proof (rounds_reach_end orders plans p file ops (read_blocks ops) (inv_start _ _ _) Fo Oo Co) as H.
    rewrite R in H. apply H. left. cbn. lia. }
  split; [exact HE|]. eapply C42_end_means_all; eassumption.
Qed.
Print Assumptions C42_everything_answered.

(** If no [pread] fails, an answer is determined by its request. *)
Theorem C42_answers_determined : forall p file ops es s rs,
  stream_run p file (read_blocks ops) es = (s, rs) ->
  file_ok file -> Forall op_ok ops ->
  forall ix op it, nth_error ops ix = Some op -> nth_error (items_of rs) ix = Some it ->
  bi_tag it = op_tag op
  /\ forall bs, bi_buf it = Ok bs -> read_block p file [] (op_start op) (op_end op) = Ret (Ok bs).
Proof.
  intros p file ops es s rs E Fo Oo ix op it No Ni.
  pose proof (C42_in_order _ _ _ _ _ _ E) as F.
  assert (Nf : nth_error (firstn (length (items_of rs)) ops) ix = Some op).
  { assert (ix < length (items_of rs)) as L by (apply nth_error_Some; congruence).
    rewrite <- No. rewrite <- (firstn_skipn (length (items_of rs)) ops) at 2.
    rewrite nth_error_app1; [reflexivity|]. rewrite (Forall2_len _ _ _ _ _ F). exact L. }
  assert (A : answers p file op it).
  { clear -F Nf Ni. revert F Nf Ni.
    generalize (firstn (length (items_of rs)) ops) as l1. generalize (items_of rs) as l2.
    intros l2 l1 F. revert ix. induction F as [|a b la lb H F IH]; intros [|ix] Nf Ni; try discriminate.
    - cbn in *. inversion Nf; inversion Ni; subst. exact H.
    - cbn in *. eapply IH; eassumption. }
  destruct A as (T & plan & R). split; [exact T|]. intros bs Eb. rewrite Eb in R.
  rewrite Forall_forall in Oo. destruct (Oo _ (nth_error_In _ _ No)) as (B1 & B2).
  destruct (read_block_spec p file plan _ _ Fo B1 B2) as (r & Er & HO & _).
  rewrite R in Er. inversion Er; subst r. destruct (HO bs eq_refl) as (Hb & Hr).
  destruct (read_block_spec p file [] _ _ Fo B1 B2) as (r' & Er' & HO' & HE').
  rewrite Er'. destruct r' as [bs'|].
  - destruct (HO' bs' eq_refl) as (Hb' & _). congruence.
  - exfalso. destruct (HE' eq_refl) as [Z|[]]. lia.
Qed.
Print Assumptions C42_answers_determined.

(** Concrete: three requests, the third past the end of the file; the second
    read finishes before the first. *)
Definition witness_ops : list read_op :=
  [mkop 0 2 (DataBlock 0); mkop 2 5 IndexBlock; mkop 4 9 GenericBlock].
Definition witness_order : list (nat * option (list pread_event)) :=
  [(2, None); (1, None); (0, None)].

Example C42_witness :
  snd (stream_run Debug [10; 11; 12; 13; 14]%N (read_blocks witness_ops)
    [EPoll witness_order; EFinish 1 [PInterrupted; PShort 1]; EPoll witness_order; EFinish 0 [];
     EPoll witness_order; EPoll witness_order; EPoll witness_order; EFinish 2 [];
     EPoll witness_order; EPoll witness_order])
  = [PPending; PPending; PReady (mkitem (DataBlock 0) (Ok [10; 11]%N));
     PReady (mkitem IndexBlock (Ok [12; 13; 14]%N)); PPending;
     PReady (mkitem GenericBlock Err); PEnd]
  /\ Forall op_ok witness_ops /\ file_ok [10; 11; 12; 13; 14]%N
  /\ covers (length witness_ops) witness_order.
Proof.
  split; [vm_compute; reflexivity|]. split; [repeat constructor|]. split; [reflexivity|].
  intros ix H. destruct ix as [|[|[|ix]]]; cbn in *; auto. exfalso. lia.
Qed.
