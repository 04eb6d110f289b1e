(** C63: what a successful sync tells, exactly. *)
From Verif Require Import Base BaseProofs Io SpecIo IoProofs PropsIo PropsIoLoss PropsCrash.
Open Scope nat_scope.

(** Some call can tell that something was lost. *)
Definition reported (ops : list writer_op) : bool :=
  existsb (fun o => match o with WFlush | WBlock (_ :: _) => true | _ => false end) ops.

(** The block that no later call has looked after: the last that is not empty, if
    no flush follows. *)
Fixpoint unconfirmed (ops : list writer_op) : list N :=
  match ops with
  | [] => []
  | WBlock b :: ops' => if reported ops' then unconfirmed ops' else b
  | _ :: ops' => unconfirmed ops'
  end.

Lemma unreported ops : forall rs parts, reported ops = false -> left_of ops rs parts -> blocks_of ops = [] /\ concat parts = [].
Proof.
  induction ops as [|o ops IH]; intros rs parts R L; cbn [reported existsb] in R.
  - destruct rs, parts; try contradiction. split; reflexivity.
  - apply Bool.orb_false_elim in R. destruct R as [R1 R2]. destruct o as [[|x b]| |]; try discriminate R1.
    + destruct rs as [|r rs]; [contradiction|]. destruct parts as [|q parts]; [contradiction|]. cbn [left_of] in L. destruct L as ((lost & E & _) & L).
      destruct (IH _ _ R2 L) as [E1 E2]. symmetry in E. apply app_eq_nil in E. destruct E as [-> _]. cbn [blocks_of concat app]. rewrite E1, E2. split; reflexivity.
    + destruct rs as [|r rs]; [contradiction|]. exact (IH rs parts R2 L).
Qed.

Lemma next_reported ops : forall rs parts, reported ops = true -> left_of ops rs parts -> Forall (fun r => r = Ok tt) rs -> next_report ops rs = Some (Ok tt).
Proof.
  induction ops as [|o ops IH]; intros rs parts R L K; [discriminate R|].
  destruct rs as [|r rs]; [destruct o as [[|x b]| |]; contradiction|]. apply Forall_cons_iff in K. destruct K as [-> K].
  destruct o as [[|x b]| |]; cbn [next_report]; try reflexivity.
  - destruct parts as [|q parts]; [contradiction|]. destruct L as (_ & L). exact (IH _ _ R L K).
  - exact (IH _ _ R L K).
Qed.

Lemma left_all_ok ops : forall rs parts, left_of ops rs parts -> Forall (fun r => r = Ok tt) rs ->
  exists before lost, blocks_of ops = concat parts ++ lost /\ unconfirmed ops = before ++ lost.
Proof.
  induction ops as [|o ops IH]; intros rs parts L K.
  - destruct rs, parts; try contradiction. exists [], []. split; reflexivity.
  - destruct rs as [|r rs]; [destruct o; contradiction|]. apply Forall_cons_iff in K. destruct K as [-> K].
    destruct o as [b| |]; cbn [blocks_of unconfirmed].
    + destruct parts as [|q parts]; [contradiction|]. destruct L as ((lost & E & X) & L). cbn [concat].
      destruct (reported ops) eqn:R.
      * assert (lost = []) as ->.
        { destruct X as [X|[X|X]]; [exact X|discriminate X|]. exfalso. apply X. eapply next_reported; eassumption. }
        destruct (IH _ _ L K) as (before & more & E1 & E2). exists before, more. rewrite E, app_nil_r, E1, app_assoc. split; [reflexivity|exact E2].
      * destruct (unreported _ _ _ R L) as [E1 E2]. exists q, lost. rewrite E1, E2, !app_nil_r. split; exact E.
    + exact (IH _ _ L K).
    + exact (IH _ _ L K).
Qed.

Lemma unconfirmed_sync ops : unconfirmed (ops ++ [WSync]) = unconfirmed ops.
Proof.
  induction ops as [|o ops IH]; [reflexivity|]. cbn [app unconfirmed]. rewrite IH.
  replace (reported (ops ++ [WSync])) with (reported ops); [reflexivity|]. unfold reported. rewrite existsb_app. cbn [existsb]. rewrite !Bool.orb_false_r. reflexivity.
Qed.

(** C63.  When every call and finally a sync reported success, only an end of the
    last block can be missing, and only if no flush followed that block; and then
    the next write of anything, or the next flush, reports an error. *)
Theorem C63_exact : forall d w f w1 wr ops w2 wr2 rs,
  0 < wd_max w -> writer_new w f = (w1, Ok wr) ->
  writer_run w1 wr (ops ++ [WSync]) = (w2, wr2, rs) -> Forall (fun r => r = Ok tt) rs ->
  exists contents before lost,
    directory_after d (wd_log w2) f = Some contents /\ blocks_of ops = contents ++ lost /\ unconfirmed ops = before ++ lost
    /\ (lost = [] \/ snd (writer_flush w2 wr2) = Err /\ forall b, b <> [] -> snd (writer_write_block w2 wr2 b) = Err).
Proof.
  intros d w f w1 wr ops w2 wr2 rs M N R K.
  destruct (C43_parts_exact d _ _ _ _ _ _ _ _ M N R) as (parts & D & L & _).
  destruct (left_all_ok _ _ _ L K) as (before & lost & E1 & E2). rewrite blocks_of_sync in E1. rewrite unconfirmed_sync in E2.
  exists (concat parts), before, lost. split; [exact D|]. split; [exact E1|]. split; [exact E2|].
  destruct (C63_or_flush_fails_partial d _ _ _ _ _ _ _ _ M N R K) as [C|C].
  - left. rewrite D in C. injection C as C. rewrite C in E1. rewrite <- (app_nil_r (blocks_of ops)) in E1 at 1. apply app_inv_head in E1. symmetry. exact E1.
  - destruct (list_eq_dec N.eq_dec lost []) as [->|NL]; [left; reflexivity|]. right. split; [exact C|]. intros b NB.
    assert (X : tf_err (wr_file wr2) = true).
    { pose proof (all_reports_ok _ _ _ _ _ _ R K) as RK.
      destruct (writer_run_split _ _ _ _ _ _ _ R RK) as (wa & wra & r1 & r2 & Ra & Ka & Rb & Kb & _).
      pose proof (writer_run_sound _ _ _ _ _ _ _ _ _ (new_sound d _ _ _ _ M N) Ra Ka) as (_ & P & c & H & X). cbn [app] in X.
      cbn [writer_run writer_step] in Rb. unfold writer_sync in Rb. destruct (tk_sync_all wa (wr_file wra)) as [[wb f1] r] eqn:W. injection Rb as <- <- <-.
      rewrite <- P in H. destruct (tk_sync_all_spec _ _ _ _ _ _ _ W H) as (_ & _ & [E|(E & _ & HK)] & _); [exact E|].
      exfalso. apply NL. destruct X as [X|X]; [congruence|]. rewrite X, P in HK. unfold holds in HK. rewrite D in HK. injection HK as HK.
      rewrite HK in E1. rewrite <- (app_nil_r (blocks_of ops)) in E1 at 1. apply app_inv_head in E1. symmetry. exact E1. }
    unfold writer_write_block. destruct b as [|x b]; [congruence|]. cbn [length tk_write_all]. unfold tk_write. rewrite X. reflexivity.
Qed.
Print Assumptions C63_exact.

(** The last block, of three bytes, loses two; the blocks before are complete,
    although no flush followed them.  With a flush nothing can be missing. *)
Example C63_exact_witness :
  let ops := [WBlock [1; 2]; WSync; WBlock [3; 4; 5]; WBlock []]%N in
  match writer_new (mkworld [] [None; None; None; Some 1] 9) [7]%N with
  | (w1, Ok wr) =>
      let '(w2, wr2, rs) := writer_run w1 wr (ops ++ [WSync]) in
      rs = [Ok tt; Ok tt; Ok tt; Ok tt; Ok tt] /\ directory_after (fun _ => None) (wd_log w2) [7]%N = Some [1; 2; 3]%N
      /\ unconfirmed ops = [3; 4; 5]%N /\ snd (writer_flush w2 wr2) = Err
      /\ unconfirmed (ops ++ [WFlush]) = []
  | _ => False end.
Proof. vm_compute. repeat split. Qed.
