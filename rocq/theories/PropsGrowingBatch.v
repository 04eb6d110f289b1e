(** Property C109, continued: batches of reads from a segment that is being written
    (segment_writer.rs, io/unix_disk_block_reader.rs). *)
From Coq Require Import Permutation.
From Verif Require Import Base BaseProofs Buffers Sink PrimEnc BinEnc Io SpecIo IoProofs IoReadProofs PropsIo IoStreamProofs PropsIoBatch Metadata Proto SpecProto ProtoProofs ReadBlock BlockProofs Names PropsNames
  Segment SpecSegment SegmentProofs SegmentRunProofs PropsSegment PropsSegmentEx PropsSegmentRef PropsReadBack PropsTorn PropsIndexErr Cancel PropsCancel PropsCancelCol Caught PropsCaughtSeg PropsCaughtTorn
  PropsEarly PropsGrowing.
Open Scope nat_scope.

(** * A batch of reads while the file changes *)

(** [stream_run] of Io.v, where every event finds the file as given with it.
    src/store/io/unix_disk_block_reader.rs:73-91. *)
Fixpoint batch_run (p : profile) (s : stream) (es : list (list N * stream_event)) : stream * list poll_result :=
  match es with
  | [] => (s, [])
  | (file, e) :: rest =>
      let '(s1, r1) := stream_step p file s e in
      let '(s2, r2) := batch_run p s1 rest in
      (s2, r1 ++ r2)
  end.

Lemma batch_same p file : forall es s, batch_run p s (map (pair file) es) = stream_run p file s es.
Proof. induction es as [|e es IH]; intros s; [reflexivity|]. cbn [map batch_run stream_run]. destruct (stream_step p file s e) as [s1 r1]. rewrite IH. reflexivity. Qed.

Lemma batch_run_spec p (Q : read_op -> result (list N) -> Prop) ops : forall es s s' rs, Forall (fun e => outcomes p (fst e) Q) es ->
  batch_run p s es = (s', rs) -> inv p Q ops s ->
  inv p Q ops s' /\ st_out s' = st_out s + length (items_of rs)
  /\ Forall2 (fun op it => bi_tag it = op_tag op /\ Q op (bi_buf it)) (firstn (length (items_of rs)) (skipn (st_out s) ops)) (items_of rs)
  /\ (In PEnd rs -> st_out s' = length ops).
Proof.
  induction es as [|[file e] es IH]; intros s s' rs FQ E I; cbn [batch_run] in E.
  { inversion E; subst. cbn. split; [assumption|]. split; [lia|]. split; [constructor|]. intros []. }
  apply Forall_cons_iff in FQ. destruct FQ as [HQ FQ]. cbn [fst] in HQ.
  destruct (stream_step p file s e) as [s1 r1] eqn:S1.
  destruct (batch_run p s1 es) as [s2 r2] eqn:S2. inversion E; subst s' rs; clear E.
  destruct e as [ix plan|order]; cbn [stream_step] in S1.
  - inversion S1; subst s1 r1; clear S1. cbn [app].
    apply (finish_inv p file Q ops ix plan _ HQ) in I. destruct (IH _ _ _ FQ S2 I) as (A & B & C & D).
    split; [exact A|]. split; [exact B|]. split; [exact C|]. exact D.
  - destruct (poll_stream p file order s) as [s3 r] eqn:P. inversion S1; subst s1 r1; clear S1.
    destruct (poll_stream_spec _ _ Q _ _ _ _ _ HQ P I) as (I3 & G).
    destruct (IH _ _ _ FQ S2 I3) as (A & B & C & D). cbn [app].
    pose proof (inv_in _ _ _ _ A). pose proof (inv_out _ _ _ _ A).
    destruct r as [it| |]; cbn [items_of length In].
    + destruct G as (G1 & op & G2 & G3). split; [exact A|]. split; [lia|].
      split; [|intros [Z|Z]; [discriminate|auto]].
      rewrite G1 in C.
      assert (SK : skipn (st_out s) ops = op :: skipn (S (st_out s)) ops).
      { clear -G2. revert G2. generalize (st_out s) as n. revert ops.
        induction ops as [|o ops IH]; intros [|n] E; cbn in *; try discriminate.
        - inversion E; reflexivity.
        - apply IH. exact E. }
      rewrite SK. cbn [firstn]. constructor; [exact G3|exact C].
    + rewrite G in *. split; [exact A|]. split; [exact B|]. split; [exact C|].
      intros [Z|Z]; [discriminate|auto].
    + destruct G as (G1 & G2). rewrite G1 in *. split; [exact A|]. split; [exact B|]. split; [exact C|].
      intros _. lia.
Qed.

(** * A segment being written *)

(** The request for the [k]-th block, with a tag of the reader's choice. *)
Definition request (bl : list (N * list N)) (want : nat * op_info) : read_op :=
  let from := N.of_nat (13 + length (concat (map snd (firstn (fst want) bl)))) in
  mkop from (from + N.of_nat (length (snd (nth (fst want) bl (0%N, [])))))%N (snd want).

(** Its answer is that block or an error, under that tag. *)
Definition answered (bl : list (N * list N)) (want : nat * op_info) (it : block_item) : Prop :=
  bi_tag it = snd want /\ (bi_buf it = Ok (snd (nth (fst want) bl (0%N, []))) \/ bi_buf it = Err).

(** Any blocks are read in a batch while the columns are being written, and every
    event of the batch may find the data file at another moment.  The answers are
    those to the first requests, in their order, each the block or an error; when the
    end is reported all requests have been answered. *)
Theorem C109_batch : forall d p w base info w1 sg cols w2 sg2 outs wanted q es s rs,
  0 < wd_max w -> is_id (si_segment_id info) -> wd_log w = [] -> d (data_path base (si_segment_id info)) = None ->
  segment_new w base info = (w1, Ok sg) -> caught_columns p w1 sg cols = (w2, sg2, outs) -> Forall none_reported outs ->
  (N.of_nat (13 + length (concat (map snd (blocks_of_columns p cols)))) < 9223372036854775808)%N ->
  Forall (fun want => fst want < length (blocks_of_columns p cols)) wanted ->
  Forall (fun e => visible d (data_path base (si_segment_id info)) w2 (sg_data sg2) (fst e)) es ->
  batch_run q (read_blocks (map (request (blocks_of_columns p cols)) wanted)) es = (s, rs) ->
  Forall2 (answered (blocks_of_columns p cols)) (firstn (length (items_of rs)) wanted) (items_of rs)
  /\ (In PEnd rs -> length (items_of rs) = length wanted).
Proof.
  intros d p w base info w1 sg cols w2 sg2 outs wanted q es s rs M ID L0 D0 NW R A SZ WA VI E.
  set (bl := blocks_of_columns p cols) in *. set (ops := map (request bl) wanted) in *.
  set (Q := fun op r => exists file plan, visible d (data_path base (si_segment_id info)) w2 (sg_data sg2) file /\ read_block q file plan (op_start op) (op_end op) = Ret r).
  assert (FQ : Forall (fun e => outcomes q (fst e) Q) es).
  { eapply Forall_impl; [|exact VI]. intros e V op r (plan & X). exists (fst e), plan. split; [exact V|exact X]. }
  destruct (batch_run_spec q Q ops es _ _ _ FQ E (inv_start q Q ops)) as (_ & O & F & D). cbn [read_blocks st_out skipn Nat.add] in O, F. split.
  - clear -M ID L0 D0 NW R A SZ WA F. revert F. unfold ops. rewrite firstn_map. generalize (items_of rs) as its. intros its.
    assert (WA' : Forall (fun want => fst want < length bl) (firstn (length its) wanted)).
    { apply Forall_forall. intros x X. rewrite Forall_forall in WA. apply WA. rewrite <- (firstn_skipn (length its) wanted). apply in_or_app. left. exact X. }
    clear WA. revert WA'. generalize (firstn (length its) wanted) as ws. intros ws. revert its.
    induction ws as [|[k tag] ws IH]; intros its WA F; inversion F as [|op it ops' its' H F' E1 E2]; subst; [constructor|].
    apply Forall_cons_iff in WA. destruct WA as [WK WA]. cbn [fst] in WK. constructor; [|exact (IH _ WA F')]. destruct H as (T & file & plan & V & X). split; [exact T|]. cbn [request op_start op_end fst snd] in X.
    destruct (nth_split bl (0%N, []) WK) as (before & after & EB & LK). assert (FK : firstn k bl = before) by (rewrite EB, <- LK, firstn_app, firstn_all, Nat.sub_diag; apply app_nil_r).
    rewrite FK in X. cbn [fst]. destruct (nth k bl (0%N, [])) as [row b] eqn:NK. cbn [snd] in X |- *.
    assert (Y : read_block q file plan (N.of_nat (13 + length (concat (map snd before)))) (N.of_nat (13 + length (concat (map snd before))) + N.of_nat (length b)) = Ret (Ok b)
                \/ read_block q file plan (N.of_nat (13 + length (concat (map snd before)))) (N.of_nat (13 + length (concat (map snd before))) + N.of_nat (length b)) = Ret Err).
    { destruct V as [(log & rest & unseen & LG & DS)|(content & unseen & DF & SE)].
      - exact (C109_never_other d p w base info w1 sg cols w2 sg2 outs log rest file unseen before row b after q plan M ID L0 D0 NW R A LG DS EB SZ).
      - exact (C109_never_other_yet d p w base info w1 sg cols w2 sg2 outs content file unseen before row b after q plan M ID L0 NW R A DF SE EB SZ). }
    rewrite X in Y. destruct Y as [Y|Y]; injection Y as Y; [left|right]; exact Y.
  - intros PE. specialize (D PE). unfold ops in D. rewrite map_length in D. lia.
Qed.
Print Assumptions C109_batch.

(** The columns of [C109_witness]: the first block is read when the file has a part of
    it, and then, with the third one, when the file has grown. *)
Example C109_batch_witness :
  let bl := blocks_of_columns Debug ex_caught in
  let order := [(0, None); (1, None); (2, None)] in
  let ops := map (request bl) [(0, IndexBlock); (2, DataBlock 7); (0, GenericBlock)] in
  let es := [(growing 0, EPoll order); (growing 0, EFinish 0 []); (growing 1, EFinish 1 []); (growing 1, EPoll order); (growing 1, EPoll order); (growing 1, EFinish 2 [PShort 3]); (growing 1, EPoll order); (growing 1, EPoll order); (growing 1, EFinish 2 []); (growing 1, EPoll order); (growing 1, EPoll order)] in
  let rs := snd (batch_run Debug (read_blocks ops) es) in
  In PEnd rs /\ items_of rs = [mkitem IndexBlock Err; mkitem (DataBlock 7) (Ok (snd (nth 2 bl (0%N, [])))); mkitem GenericBlock (Ok (snd (nth 0 bl (0%N, []))))].
Proof.
  assert (X : forall rs l l', items_of rs = l -> l = l' -> existsb (fun r => match r with PEnd => true | _ => false end) rs = true -> In PEnd rs /\ items_of rs = l').
  { intros rs l l' E1 E2 E. split; [|congruence]. apply existsb_exists in E. destruct E as ([| |] & I & T); [discriminate T..|exact I]. }
  cbv zeta. eapply X; [reflexivity| |]; vm_compute; reflexivity.
Qed.
