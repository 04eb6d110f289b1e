(** C42: batches of good ranges. *)
From Verif Require Import Base Io IoReadProofs PropsIo IoStreamProofs PropsIoBatch.
Open Scope nat_scope.

(** No read done in this step fails of its own. *)
Definition harmless (e : stream_event) : Prop :=
  match e with
  | EFinish _ plan => ~ In PFail plan
  | EPoll order => Forall (fun o => match snd o with Some plan => ~ In PFail plan | None => True end) order
  end.

(** A range of the file. *)
Definition in_file (file : list N) (op : read_op) : Prop :=
  (op_start op <= op_end op /\ op_end op <= N.of_nat (length file))%N.

(** The bytes of a range of the file. *)
Definition range_bytes (file : list N) (op : read_op) : list N :=
  firstn (N.to_nat (op_end op) - N.to_nat (op_start op)) (skipn (N.to_nat (op_start op)) file).

Section Good.
Context (p : profile) (file : list N) (FO : file_ok file).

Lemma range_read op plan : in_file file op -> ~ In PFail plan ->
  read_block p file plan (op_start op) (op_end op) = Ret (Ok (range_bytes file op)).
Proof.
  intros (L1 & L2) NF. unfold range_bytes.
  set (a := N.to_nat (op_start op)). set (b := N.to_nat (op_end op)).
  assert (L : a <= b <= length file) by (unfold a, b; lia).
  assert (EF : file = firstn a file ++ firstn (b - a) (skipn a file) ++ skipn (b - a) (skipn a file)).
  { rewrite firstn_skipn, firstn_skipn. reflexivity. }
  assert (La : length (firstn a file) = a) by (rewrite firstn_length; lia).
  assert (Lb : length (firstn (b - a) (skipn a file)) = b - a) by (rewrite firstn_length, skipn_length; lia).
  assert (FO' := FO). rewrite EF in FO'.
  assert (K := C41_range_in_file p _ _ _ plan FO' NF). rewrite <- EF, La, Lb in K.
  replace (N.of_nat a) with (op_start op) in K by (unfold a; lia).
  replace (N.of_nat (a + (b - a))) with (op_end op) in K by (unfold b in *; lia).
  exact K.
Qed.

Definition good_fut (f : fut) : Prop :=
  in_file file (fu_op f) /\ forall r, fu_st f = FReady r -> r = Ok (range_bytes file (fu_op f)).

Definition good_entry (e : nat * (read_op * result (list N))) : Prop :=
  snd (snd e) = Ok (range_bytes file (fst (snd e))).

Definition good (s : stream) : Prop :=
  Forall (in_file file) (st_src s) /\ Forall good_fut (st_run s) /\ Forall good_entry (st_queue s).

(** An item holds the bytes of some request. *)
Definition good_result (r : poll_result) : Prop :=
  match r with PReady it => exists bs, bi_buf it = Ok bs | _ => True end.

Lemma outcome_good op plan r : in_file file op -> ~ In PFail plan -> read_op_outcome p file op plan = Some r ->
  r = Ok (range_bytes file op).
Proof.
  intros I NF E. unfold read_op_outcome in E. rewrite (range_read op plan I NF) in E. congruence.
Qed.

Lemma set_good ix st run : Forall good_fut run ->
  (forall f r, In f run -> fu_ix f = ix -> st = FReady r -> r = Ok (range_bytes file (fu_op f))) ->
  Forall good_fut (set_fut ix st run).
Proof.
  induction run as [|g run IH]; intros F H; [constructor|]. apply Forall_cons_iff in F. destruct F as [G F]. cbn [set_fut].
  destruct (Nat.eqb_spec (fu_ix g) ix) as [E|E].
  - constructor; [|exact F]. split; [exact (proj1 G)|]. cbn [fu_st fu_op]. intros r Es. eapply H; [left; reflexivity|exact E|exact Es].
  - constructor; [exact G|]. apply IH; [exact F|]. intros f r I. apply H. right. exact I.
Qed.

Lemma drop_good ix run : Forall good_fut run -> Forall good_fut (drop_fut ix run).
Proof.
  induction run as [|g run IH]; intros F; [constructor|]. apply Forall_cons_iff in F. destruct F as [G F]. cbn [drop_fut].
  destruct (fu_ix g =? ix); [exact F|]. constructor; [exact G|]. apply IH. exact F.
Qed.

Lemma unordered_good order : forall run run' rest res, Forall (fun o => match snd o with Some plan => ~ In PFail plan | None => True end) order ->
  Forall good_fut run -> poll_unordered p file order run = (run', rest, res) ->
  Forall good_fut run' /\ Forall (fun o => match snd o with Some plan => ~ In PFail plan | None => True end) rest
  /\ match res with Some (f, r) => r = Ok (range_bytes file (fu_op f)) | None => True end.
Proof.
  induction order as [|[ix quick] order IH]; intros run run' rest res HO F E.
  { inversion E; subst. auto. }
  apply Forall_cons_iff in HO. destruct HO as [H1 HO]. cbn [snd] in H1. cbn [poll_unordered] in E.
  destruct (find_fut ix run) as [f|] eqn:Ff; [|exact (IH _ _ _ _ HO F E)].
  destruct (find_fut_ix _ _ _ Ff) as (_ & If). assert (G : good_fut f) by (rewrite Forall_forall in F; auto).
  assert (SK : Forall good_fut (set_fut ix FRunning run)) by (apply set_good; [exact F|discriminate]).
  destruct (fu_st f) as [| |r] eqn:S0.
  1,2: destruct quick as [plan|]; [|exact (IH _ _ _ _ HO SK E)];
    destruct (read_op_outcome p file (fu_op f) plan) as [r|] eqn:R; [|exact (IH _ _ _ _ HO SK E)];
    inversion E; subst; split; [apply drop_good; exact F|]; split; [exact HO|]; exact (outcome_good _ _ _ (proj1 G) H1 R).
  inversion E; subst. split; [apply drop_good; exact F|]. split; [exact HO|]. exact (proj2 G _ S0).
Qed.

Lemma ordered_good fuel : forall order s s' r, Forall (fun o => match snd o with Some plan => ~ In PFail plan | None => True end) order ->
  good s -> poll_ordered fuel p file order s = (s', r) -> good s' /\ good_result r.
Proof.
  induction fuel as [|fuel IH]; intros order s s' r HO (GS & GR & GQ) E; cbn [poll_ordered] in E.
  { inversion E; subst. split; [split; [exact GS|split; [exact GR|exact GQ]]|exact I]. }
  destruct (poll_unordered p file order (st_run s)) as [[run rest] res] eqn:U.
  destruct (unordered_good _ _ _ _ _ HO GR U) as (GR' & HO' & HR). destruct res as [[f rr]|].
  - destruct (fu_ix f =? st_out s).
    + inversion E; subst. split; [split; [exact GS|split; [exact GR'|exact GQ]]|]. exists (range_bytes file (fu_op f)). reflexivity.
    + apply (IH _ _ _ _ HO') in E; [exact E|]. split; [exact GS|]. split; [exact GR'|]. apply Forall_app. split; [exact GQ|].
      constructor; [exact HR|constructor].
  - inversion E; subst. split; [split; [exact GS|split; [exact GR'|exact GQ]]|]. destruct run; exact I.
Qed.

Lemma remove_good ix q : Forall good_entry q -> Forall good_entry (heap_remove ix q).
Proof.
  induction q as [|e q IH]; intros F; [constructor|]. apply Forall_cons_iff in F. destruct F as [G F]. cbn [heap_remove].
  destruct (fst e =? ix); [exact F|]. constructor; [exact G|]. apply IH. exact F.
Qed.

Lemma peek_in q : forall e, heap_peek q = Some e -> In e q.
Proof.
  induction q as [|x q IH]; intros e E; [discriminate|]. cbn [heap_peek] in E. destruct (heap_peek q) as [y|].
  - destruct (fst y <? fst x); injection E as <-; [right; apply IH; reflexivity|left; reflexivity].
  - injection E as <-. left. reflexivity.
Qed.

Lemma fill_good fuel : forall s, good s -> good (fill fuel s).
Proof.
  induction fuel as [|fuel IH]; intros s G; [exact G|]. cbn [fill]. destruct (_ <? _); [|exact G].
  destruct G as (GS & GR & GQ). destruct (st_src s) as [|op rest] eqn:ES.
  - split; [constructor|]. split; [exact GR|exact GQ].
  - apply IH. apply Forall_cons_iff in GS. destruct GS as [G1 GS]. split; [exact GS|]. split; [|exact GQ]. cbn [st_run].
    apply Forall_app. split; [exact GR|]. constructor; [|constructor]. split; [exact G1|discriminate].
Qed.

Lemma step_good s e s' rs : harmless e -> good s -> stream_step p file s e = (s', rs) -> good s' /\ Forall good_result rs.
Proof.
  intros H G E. destruct e as [ix plan|order]; cbn [stream_step harmless] in *.
  - inversion E; subst. split; [|constructor]. destruct G as (GS & GR & GQ). split; [exact GS|]. split; [|exact GQ]. cbn [st_run].
    unfold finish. destruct (find_fut ix (st_run s)) as [f|] eqn:Ff; [|exact GR].
    destruct (fu_st f) eqn:S0; try exact GR. destruct (read_op_outcome p file (fu_op f) plan) as [r|] eqn:R; [|exact GR].
    destruct (find_fut_ix _ _ _ Ff) as (Fi & If).
    clear E. generalize GR. revert Ff. generalize (st_run s). intros run Ff F.
    assert (K : In f run) by (apply find_fut_ix in Ff; tauto). assert (GF : good_fut f) by (rewrite Forall_forall in F; auto).
    pose proof (outcome_good _ _ _ (proj1 GF) H R) as ER. clear -Ff F GF ER Fi.
    induction run as [|g run IH]; [constructor|]. apply Forall_cons_iff in F. destruct F as [G F]. cbn [find_fut set_fut] in *.
    destruct (Nat.eqb_spec (fu_ix g) ix) as [Eg|Eg].
    + injection Ff as ->. constructor; [|exact F]. split; [exact (proj1 GF)|]. cbn [fu_st fu_op]. intros r0 Z. injection Z as <-. exact ER.
    + constructor; [exact G|]. apply IH; assumption.
  - destruct (poll_stream p file order s) as [s1 r] eqn:P. inversion E; subst. clear E.
    assert (K : good s' /\ good_result r); [|split; [exact (proj1 K)|constructor; [exact (proj2 K)|constructor]]].
    unfold poll_stream in P. pose proof (fill_good (S BLOCK_BUFFER_SIZE) s G) as GF. set (s0 := fill (S BLOCK_BUFFER_SIZE) s) in *.
    destruct (ordered_next p file order s0) as [s2 r2] eqn:O.
    assert (K : good s2 /\ good_result r2).
    { unfold ordered_next in O. destruct (heap_peek (st_queue s0)) as [[ix [op rr]]|] eqn:PK; [|eapply ordered_good; eassumption].
      destruct (ix =? st_out s0); [|eapply ordered_good; eassumption].
      inversion O; subst. destruct GF as (GS & GR & GQ). split; [split; [exact GS|split; [exact GR|apply remove_good; exact GQ]]|].
      apply peek_in in PK. rewrite Forall_forall in GQ. specialize (GQ _ PK). exists (range_bytes file op). exact GQ. }
    destruct r2; inversion P; subst; [exact K|exact K|]. split; [exact (proj1 K)|]. destruct (st_done s'); exact I.
Qed.

Lemma run_good es : forall s s' rs, Forall harmless es -> good s -> stream_run p file s es = (s', rs) -> Forall good_result rs.
Proof.
  induction es as [|e es IH]; intros s s' rs H G E; cbn [stream_run] in E.
  { inversion E; subst. constructor. }
  apply Forall_cons_iff in H. destruct H as [H1 H]. destruct (stream_step p file s e) as [s1 r1] eqn:S1.
  destruct (stream_run p file s1 es) as [s2 r2] eqn:S2. inversion E; subst. destruct (step_good _ _ _ _ H1 G S1) as (G1 & R1).
  apply Forall_app. split; [exact R1|]. exact (IH _ _ _ H G1 S2).
Qed.

Lemma items_good rs : Forall good_result rs -> Forall (fun it => exists bs, bi_buf it = Ok bs) (items_of rs).
Proof.
  induction rs as [|r rs IH]; intros F; [constructor|]. apply Forall_cons_iff in F. destruct F as [G F].
  destruct r; cbn [items_of]; [|exact (IH F)..]. constructor; [exact G|exact (IH F)].
Qed.

Lemma answers_good ops its : Forall2 (answers p file) ops its -> Forall (in_file file) ops ->
  Forall (fun it => exists bs, bi_buf it = Ok bs) its ->
  its = map (fun op => mkitem (op_tag op) (Ok (range_bytes file op))) ops.
Proof.
  induction 1 as [|op it ops its A F IH]; intros I G; [reflexivity|].
  apply Forall_cons_iff in I. destruct I as [I1 I]. apply Forall_cons_iff in G. destruct G as [(bs & G1) G].
  cbn [map]. rewrite <- (IH I G). f_equal. destruct A as (T & plan & R). destruct it as [tag buf]. cbn [bi_tag bi_buf] in *. subst tag buf.
  f_equal. f_equal. destruct I1 as (L1 & L2). assert (FO' := FO). unfold file_ok in FO'.
  destruct (read_block_spec p file plan (op_start op) (op_end op)) as (r & Er & HO & _);
    [exact FO'|change u64_lim with 18446744073709551616%N; lia..|].
  rewrite R in Er. injection Er as <-. destruct (HO bs eq_refl) as (-> & _). unfold range_bytes. f_equal. lia.
Qed.
End Good.

(** If all ranges lie in the file and no read fails of its own, every answer is
    the bytes of its range, under any schedule, and when the end is reached every
    request has been answered. *)
Theorem C42_good_ranges : forall p file ops es s rs,
  file_ok file -> Forall (in_file file) ops -> Forall harmless es ->
  stream_run p file (read_blocks ops) es = (s, rs) ->
  items_of rs = map (fun op => mkitem (op_tag op) (Ok (range_bytes file op))) (firstn (length (items_of rs)) ops)
  /\ (In PEnd rs -> items_of rs = map (fun op => mkitem (op_tag op) (Ok (range_bytes file op))) ops).
Proof.
  intros p file ops es s rs FO I H E.
  assert (G : good file (read_blocks ops)) by (split; [exact I|split; constructor]).
  pose proof (items_good _ (run_good p file FO _ _ _ _ H G E)) as OK. split.
  - eapply answers_good; [exact FO|eapply C42_in_order; exact E| |exact OK]. apply Forall_forall. intros x X. rewrite Forall_forall in I. apply I.
    rewrite <- (firstn_skipn (length (items_of rs)) ops). apply in_or_app. left. exact X.
  - intros X. eapply answers_good; [exact FO|eapply C42_end_means_all; eassumption|exact I|exact OK].
Qed.
Print Assumptions C42_good_ranges.

(** Concrete: two overlapping ranges and an empty one; the reads are interrupted
    and come in pieces. *)
Example C42_good_witness :
  let file := [10; 11; 12; 13; 14]%N in
  let ops := [mkop 0 3 (DataBlock 0); mkop 1 5 IndexBlock; mkop 5 5 GenericBlock] in
  let order := [(2, None); (1, None); (0, None)] in
  let es := [EPoll order; EFinish 1 [PInterrupted; PShort 1]; EPoll order; EFinish 0 []; EPoll order; EPoll order; EFinish 2 []; EPoll order; EPoll order; EFinish 2 []; EPoll order; EPoll order] in
  file_ok file /\ Forall (in_file file) ops /\ Forall harmless es
  /\ In PEnd (snd (stream_run Debug file (read_blocks ops) es))
  /\ items_of (snd (stream_run Debug file (read_blocks ops) es))
     = [mkitem (DataBlock 0) (Ok [10; 11; 12]%N); mkitem IndexBlock (Ok [11; 12; 13; 14]%N); mkitem GenericBlock (Ok [])].
Proof.
  cbv zeta. split; [unfold file_ok; cbn; lia|]. split; [repeat constructor; unfold in_file; cbn; lia|].
  split.
  { repeat (apply Forall_cons; [cbn|]); try apply Forall_nil; try (repeat (apply Forall_cons; [exact I|]); apply Forall_nil); intuition discriminate. }
  split; [vm_compute; repeat (first [left; reflexivity|right])|vm_compute; reflexivity].
Qed.
