(** Property C43, exactly: what a file holds after any failures of a block writer
    (io/default_block_writer.rs). *)
From Verif Require Import Base Io SpecIo IoProofs IoReadProofs PropsIo.
Open Scope nat_scope.

(** The next result after some calls that can tell of a failure: that of a flush
    or of a write that has something to write.  A sync keeps what it learns. *)
Fixpoint next_report (ops : list writer_op) (rs : list (result unit)) : option (result unit) :=
  match ops, rs with
  | WFlush :: _, r :: _ => Some r
  | WBlock (_ :: _) :: _, r :: _ => Some r
  | _ :: ops', _ :: rs' => next_report ops' rs'
  | _, _ => None
  end.

(** [parts] says what is left of each block: a part from its start.  If it is not
    all of it, the write itself failed, or the next call that can tell fails, or
    there is no such call. *)
Fixpoint left_of (ops : list writer_op) (rs : list (result unit)) (parts : list (list N)) : Prop :=
  match ops, rs, parts with
  | WBlock b :: ops', r :: rs', q :: parts' =>
      (exists lost, b = q ++ lost /\ (lost = [] \/ r = Err \/ next_report ops' rs' <> Some (Ok tt))) /\ left_of ops' rs' parts'
  | WBlock _ :: _, _, _ => False
  | _ :: ops', _ :: rs', _ => left_of ops' rs' parts
  | [], [], [] => True
  | _, _, _ => False
  end.

Lemma firstn_prefix {T} k (l : list T) : exists rest, l = firstn k l ++ rest.
Proof. exists (skipn k l). symmetry. apply firstn_skipn. Qed.

(** What a writer does while other files may be written, too. *)
Inductive writer_trace (d : directory) (f : path) : world -> writer -> list (writer_op * result unit) -> world -> writer -> Prop :=
| wt_nil w wr : writer_trace d f w wr [] w wr
| wt_op w wr o w1 wr1 r tr w2 wr2 : writer_step w wr o = (w1, wr1, r) -> writer_trace d f w1 wr1 tr w2 wr2 ->
    writer_trace d f w wr ((o, r) :: tr) w2 wr2
| wt_other w wr w1 tr w2 wr2 : wd_max w1 = wd_max w -> directory_after d (wd_log w1) f = directory_after d (wd_log w) f ->
    writer_trace d f w1 wr tr w2 wr2 -> writer_trace d f w wr tr w2 wr2.

Lemma run_trace d f : forall ops w wr w1 wr1 rs, writer_run w wr ops = (w1, wr1, rs) ->
  exists tr, writer_trace d f w wr tr w1 wr1 /\ map fst tr = ops /\ map snd tr = rs.
Proof.
  induction ops as [|o ops IH]; intros w wr w1 wr1 rs R; cbn [writer_run] in R.
  - injection R as <- <- <-. exists []. split; [constructor|auto].
  - destruct (writer_step w wr o) as [[w0 wr0] r] eqn:ST. destruct (writer_run w0 wr0 ops) as [[w2 wr2] rs2] eqn:R2. injection R as <- <- <-.
    destruct (IH _ _ _ _ _ R2) as (tr & T & <- & <-). exists ((o, r) :: tr). split; [econstructor; eassumption|auto].
Qed.

Lemma trace_app d f w wr tr1 w1 wr1 tr2 w2 wr2 : writer_trace d f w wr tr1 w1 wr1 -> writer_trace d f w1 wr1 tr2 w2 wr2 -> writer_trace d f w wr (tr1 ++ tr2) w2 wr2.
Proof. intros T1 T2. induction T1; cbn [app]; [exact T2|econstructor; eauto|eapply wt_other; eauto]. Qed.

Lemma trace_pos d f w wr tr w1 wr1 : writer_trace d f w wr tr w1 wr1 -> writer_pos wr1 = (writer_pos wr + N.of_nat (length (blocks_of (map fst tr))))%N.
Proof.
  intros T. induction T as [w wr|w wr o w1 wr1 r tr w2 wr2 ST T IH|w wr w1 tr w2 wr2 M D T IH]; [cbn; lia| |exact IH].
  rewrite IH. cbn [map fst blocks_of]. unfold writer_pos. destruct o as [b| |]; cbn [writer_step] in ST.
  - unfold writer_write_block in ST. destruct (tk_write_all _ _ _ _) as [[a f1] rr]. injection ST as <- <- <-. cbn [wr_pos]. rewrite app_length. lia.
  - unfold writer_flush in ST. destruct (tk_flush _ _) as [[a f1] rr]. injection ST as <- <- <-. cbn [wr_pos]. lia.
  - unfold writer_sync in ST. destruct (tk_sync_all _ _) as [[a f1] rr]. injection ST as <- <- <-. cbn [wr_pos]. lia.
Qed.

Lemma left_of_trace d f w wr tr w1 wr1 : writer_trace d f w wr tr w1 wr1 ->
  forall c, 0 < wd_max w -> tf_path (wr_file wr) = f -> holds d w f c ->
  (tf_err (wr_file wr) = true -> tf_busy (wr_file wr) = None) ->
  exists kept lost parts, pending (wr_file wr) = kept ++ lost
    /\ ((lost = [] /\ tf_err (wr_file wr) = false) \/ next_report (map fst tr) (map snd tr) <> Some (Ok tt))
    /\ holds d w1 f (c ++ kept ++ concat parts) /\ left_of (map fst tr) (map snd tr) parts.
Proof.
  intros T. induction T as [w wr|w wr o w0 wr0 r tr w2 wr2 ST T IH|w wr w1 tr w2 wr2 M0 D0 T IH]; intros c M P H X; cbn [map fst snd].
  - exists [], (pending (wr_file wr)), []. cbn [concat app next_report left_of]. rewrite app_nil_r.
    split; [reflexivity|]. split; [right; discriminate|]. split; [exact H|exact I].
  - rewrite <- P in H.
    destruct o as [b| |]; cbn [writer_step] in ST.
    + unfold writer_write_block in ST. destruct (tk_write_all _ _ _ _) as [[a f1] rr] eqn:W. injection ST as <- <- <-. cbn [wr_file].
      destruct (tk_write_all_spec _ _ _ _ _ _ _ _ _ W H (le_n _) M) as (P1 & HE & HX1 & HX2 & HO & HB1 & HB2 & (k & HK & Lk) & _).
      destruct HE as (HM & _). rewrite P in *.
      destruct b as [|b0 b].
      { cbn [tk_write_all length] in W. injection W as <- <- <-.
        destruct (IH c M P H X) as (kept & lost & parts & E1 & E2 & E3 & E4). cbn [wr_file] in *.
        exists kept, lost, ([] :: parts). cbn [next_report concat app left_of]. split; [exact E1|]. split; [exact E2|]. split; [exact E3|].
        split; [|exact E4]. exists []. auto. }
      destruct (tf_err (wr_file wr)) eqn:EX.
      * (* a kept error *)
        assert (B0 : tf_busy (wr_file wr) = None) by (apply X; reflexivity).
        cbn [tk_write_all length] in W. unfold tk_write in W. rewrite EX in W. injection W as <- <- <-.
        destruct (IH c M P H ltac:(cbn; discriminate)) as (kept & lost & parts & E1 & E2 & E3 & E4).
        cbn [wr_file pending tf_busy] in E1. unfold pending in E1. cbn [tf_busy] in E1. rewrite B0 in E1. symmetry in E1. apply app_eq_nil in E1. destruct E1 as [-> ->].
        exists [], [], ([] :: parts). unfold pending. rewrite B0. cbn [next_report concat app left_of]. split; [reflexivity|]. split; [right; discriminate|].
        split; [exact E3|]. split; [|exact E4]. exists (b0 :: b). auto.
      * specialize (HX1 eq_refl). destruct rr as [[]|].
        -- destruct HO as (pre & chunk & Eb & NC & _ & B1 & H1 & _); [discriminate|reflexivity|].
           destruct (IH (c ++ pending (wr_file wr) ++ pre)) as (kept & lost & parts & E1 & E2 & E3 & E4);
             [lia|exact P1|exact H1|cbn [wr_file]; congruence|].
           cbn [wr_file] in E1, E2. unfold pending in E1 at 1. rewrite B1 in E1.
           exists (pending (wr_file wr)), [], ((pre ++ kept) :: parts). cbn [next_report concat left_of]. rewrite app_nil_r.
           split; [reflexivity|]. split; [left; auto|]. split; [rewrite <- !app_assoc in *; exact E3|]. split; [|exact E4].
           exists lost. split; [rewrite Eb, E1, <- app_assoc; reflexivity|]. destruct E2 as [[-> _]|E2]; auto.
        -- specialize (HB1 eq_refl eq_refl).
           destruct (IH _ ltac:(lia) P1 HK ltac:(cbn [wr_file]; congruence)) as (kept & lost & parts & E1 & E2 & E3 & E4).
           cbn [wr_file] in E1. unfold pending in E1 at 1. rewrite HB1 in E1. symmetry in E1. apply app_eq_nil in E1. destruct E1 as [-> ->]. cbn [app] in E3.
           rewrite firstn_app in E3. rewrite (firstn_all2 c) in E3 by exact Lk. set (j := k - length c) in *. rewrite firstn_app in E3.
           destruct (firstn_prefix j (pending (wr_file wr))) as (l1 & F1). destruct (firstn_prefix (j - length (pending (wr_file wr))) (b0 :: b)) as (l2 & F2).
           exists (firstn j (pending (wr_file wr))), l1, (firstn (j - length (pending (wr_file wr))) (b0 :: b) :: parts).
           split; [exact F1|]. split; [right; cbn; discriminate|]. split; [cbn [concat]; rewrite <- !app_assoc in *; exact E3|].
           cbn [left_of]. split; [|exact E4]. exists l2. auto.
    + unfold writer_flush in ST. destruct (tk_flush _ _) as [[a f1] rr] eqn:W. injection ST as <- <- <-. cbn [wr_file].
      destruct (tk_flush_spec _ _ _ _ _ _ _ W H) as (P1 & HE & Xe & HT & HB & HO & (k & HK) & _). destruct HE as (HM & _). rewrite P in *.
      assert (BN : tf_busy f1 = None).
      { destruct (tf_err (wr_file wr)) eqn:EX; [|auto]. destruct (HT eq_refl) as (_ & -> & _). auto. }
      assert (HC : exists kept lost, pending (wr_file wr) = kept ++ lost /\ holds d a f (c ++ kept) /\ ((lost = [] /\ tf_err (wr_file wr) = false) \/ rr <> Ok tt)).
      { destruct rr as [[]|].
        - destruct (HO eq_refl) as (HH & EX). exists (pending (wr_file wr)), []. rewrite app_nil_r. auto.
        - destruct (firstn_prefix k (pending (wr_file wr))) as (l1 & F1). exists (firstn k (pending (wr_file wr))), l1. split; [exact F1|]. split; [exact HK|]. right. discriminate. }
      destruct HC as (kept0 & lost0 & F1 & F2 & F3).
      destruct (IH (c ++ kept0) ltac:(lia) P1 F2 ltac:(cbn [wr_file]; congruence)) as (kept & lost & parts & E1 & E2 & E3 & E4).
      cbn [wr_file] in E1. unfold pending in E1 at 1. rewrite BN in E1. symmetry in E1. apply app_eq_nil in E1. destruct E1 as [-> ->]. cbn [app] in E3.
      exists kept0, lost0, parts. split; [exact F1|]. split; [destruct F3 as [F3|F3]; [left; exact F3|right; cbn; congruence]|].
      split; [rewrite <- !app_assoc in *; exact E3|exact E4].
    + unfold writer_sync in ST. destruct (tk_sync_all _ _) as [[a f1] rr] eqn:W. injection ST as <- <- <-. cbn [wr_file].
      destruct (tk_sync_all_spec _ _ _ _ _ _ _ W H) as (P1 & HE & HS & HT & (k & HK) & _). destruct HE as (HM & _). rewrite P in *.
      assert (BN : tf_busy f1 = None).
      { destruct (tf_err (wr_file wr)) eqn:EX; [rewrite (HT eq_refl); auto|].
        unfold tk_sync_all in W. destruct (tk_flush w (wr_file wr)) as [[wq fq] rq] eqn:Fq.
        destruct (tk_flush_spec _ _ _ _ _ _ _ Fq ltac:(rewrite P; exact H)) as (_ & _ & _ & _ & HB' & _). specialize (HB' EX).
        destruct (next_fate wq) as [[?|] ?]; injection W as <- <- <-; destruct rq; exact HB'. }
      assert (HC : exists kept lost, pending (wr_file wr) = kept ++ lost /\ holds d a f (c ++ kept) /\ ((lost = [] /\ tf_err (wr_file wr) = false) \/ tf_err f1 = true)).
      { destruct HS as [HS|(HS & _ & HH)].
        - destruct (firstn_prefix k (pending (wr_file wr))) as (l1 & F1). exists (firstn k (pending (wr_file wr))), l1. auto.
        - exists (pending (wr_file wr)), []. rewrite app_nil_r. auto. }
      destruct HC as (kept0 & lost0 & F1 & F2 & F3).
      destruct (IH (c ++ kept0) ltac:(lia) P1 F2 ltac:(cbn [wr_file]; congruence)) as (kept & lost & parts & E1 & E2 & E3 & E4).
      cbn [wr_file] in E1, E2. unfold pending in E1 at 1. rewrite BN in E1. symmetry in E1. apply app_eq_nil in E1. destruct E1 as [-> ->]. cbn [app] in E3.
      exists kept0, lost0, parts. split; [exact F1|]. split.
      { cbn [next_report]. destruct F3 as [F3|F3]; [left; exact F3|right]. destruct E2 as [[_ E2]|E2]; [congruence|exact E2]. }
      split; [rewrite <- !app_assoc in *; exact E3|exact E4].
  - apply IH; [lia|exact P|unfold holds in *; congruence|exact X].
Qed.

(** The blocks of a history. *)
Fixpoint block_list (ops : list writer_op) : list (list N) :=
  match ops with
  | [] => []
  | WBlock b :: rest => b :: block_list rest
  | _ :: rest => block_list rest
  end.

Lemma blocks_concat ops : blocks_of ops = concat (block_list ops).
Proof. induction ops as [|[b| |] ops IH]; cbn; congruence. Qed.

Lemma left_of_prefixes : forall ops rs parts, left_of ops rs parts -> Forall2 (fun q b => exists lost, b = q ++ lost) parts (block_list ops).
Proof.
  induction ops as [|[b| |] ops IH]; intros rs parts H; cbn [left_of block_list] in *.
  - destruct rs; [|contradiction]. destruct parts; [constructor|contradiction].
  - destruct rs; [contradiction|]. destruct parts; [contradiction|]. destruct H as [(lost & E & _) H]. constructor; [eauto|eapply IH; exact H].
  - destruct rs; [contradiction|]. eapply IH; exact H.
  - destruct rs; [contradiction|]. eapply IH; exact H.
Qed.

Lemma prefix_lengths (parts blocks : list (list N)) : Forall2 (fun q b => exists lost, b = q ++ lost) parts blocks ->
  length (concat parts) <= length (concat blocks) /\ (length (concat parts) = length (concat blocks) -> parts = blocks).
Proof.
  induction 1 as [|q b parts blocks (lost & ->) _ (L & E)]; [split; [lia|reflexivity]|].
  cbn [concat]. rewrite !app_length. split; [lia|]. intros EQ. destruct lost; [|cbn [length] in EQ; lia].
  rewrite app_nil_r in *. f_equal. apply E. lia.
Qed.

(** C43, exactly, for every sequence of writes, flushes and syncs, every fate of
    each background write and every chunk size: the file holds, one after the
    other, a part of each block from its start.  A block of which something is
    missing was reported: its write failed, or the next call that can tell fails,
    or there is none yet.  The position counts all blocks in full, so it is the
    length of the file exactly if nothing is missing. *)
Theorem C43_parts_exact : forall d w f w1 wr ops w2 wr2 rs, 0 < wd_max w ->
  writer_new w f = (w1, Ok wr) -> writer_run w1 wr ops = (w2, wr2, rs) ->
  exists parts, directory_after d (wd_log w2) f = Some (concat parts) /\ left_of ops rs parts
    /\ writer_pos wr2 = N.of_nat (length (concat (block_list ops)))
    /\ (writer_pos wr2 = N.of_nat (length (concat parts)) <-> parts = block_list ops).
Proof.
  intros d w f w1 wr ops w2 wr2 rs M N R. destruct (writer_new_inv d _ _ _ _ N) as (HM & P & X & B & P0 & H & _).
  destruct (run_trace d f _ _ _ _ _ _ R) as (tr & T & EO & ER).
  destruct (left_of_trace _ _ _ _ _ _ _ T [] ltac:(lia) P H ltac:(congruence)) as (kept & lost & parts & E1 & _ & E3 & E4).
  rewrite EO, ER in E4. unfold pending in E1. rewrite B in E1. symmetry in E1. apply app_eq_nil in E1. destruct E1 as [-> ->]. cbn [app] in E3.
  assert (PP : writer_pos wr2 = N.of_nat (length (concat (block_list ops)))).
  { rewrite <- blocks_concat. unfold writer_pos. rewrite (writer_pos_run _ _ _ _ _ _ R), P0. reflexivity. }
  exists parts. split; [exact E3|]. split; [exact E4|]. split; [exact PP|]. rewrite PP.
  destruct (prefix_lengths parts (block_list ops) (left_of_prefixes _ _ _ E4)) as (L & E). split; [intros Q; apply E; lia|intros ->; reflexivity].
Qed.
Print Assumptions C43_parts_exact.

(** Chunks of two bytes; opening succeeds.  Of the first block one byte arrives,
    which its own write notices; the second block arrives but for its last byte,
    which a sync notices and the next write reports, so nothing of the third is
    written; the fourth arrives in full, at position 11 by the count and 4 in the
    file. *)
Example C43_parts_witness :
  let ops := [WBlock [1; 2; 3; 4]; WBlock [5; 6; 7; 8]; WSync; WBlock [9; 10; 11]; WBlock [12]; WFlush]%N in
  match writer_new (mkworld [] [None; Some 1; None; Some 1] 2) [7%N] with
  | (w1, Ok wr) =>
      let '(w2, wr2, rs) := writer_run w1 wr ops in
      rs = [Err; Ok tt; Ok tt; Err; Ok tt; Ok tt] /\ directory_after (fun _ => None) (wd_log w2) [7%N] = Some (concat [[1]; [5; 6; 7]; []; [12]])%N
      /\ writer_pos wr2 = 12%N /\ left_of ops rs [[1]; [5; 6; 7]; []; [12]]%N
  | _ => False end.
Proof.
  vm_compute. repeat split; try reflexivity.
  - exists [2; 3; 4]%N. split; [reflexivity|]. right. left. reflexivity.
  - exists [8]%N. split; [reflexivity|]. right. right. discriminate.
  - exists [9; 10; 11]%N. split; [reflexivity|]. right. left. reflexivity.
  - exists []. split; [reflexivity|]. left. reflexivity.
Qed.
