(** Properties C50 and C75 when panics are caught: which files are touched, and what
    the metadata has, whatever fails or panics (segment_writer.rs). *)
From Verif Require Import Base BaseProofs Buffers Sink PrimEnc BinEnc Io SpecIo IoProofs PropsIo Metadata Proto SpecProto ProtoProofs ReadBlock BlockProofs Names PropsNames Segment SpecSegment
  SegmentProofs SegmentRunProofs PropsSegment PropsSegmentEx PropsSegmentRef PropsIndexErr PropsDespite Cancel PropsCancel PropsCancelCol Caught PropsCaughtSeg PropsCaughtTorn.
From Coq Require Import Permutation.
Open Scope nat_scope.

(** A history of a segment, going on after panics; how each call of each step ended.
    First the calls on one column, src/store/segment_writer.rs:199-218, 270-328. *)
Definition caught_column (p : profile) (w : world) (sg : segment) (ci : column_info) (cops : list col_op) : world * segment * list (outcome (result unit)) :=
  match new_binary_column_writer sg ci with
  | (sg, Err) => (w, sg, [Ret Err])
  | (sg, Ok cw) => caught_run p w sg cw cops
  end.

(** All of them, src/store/segment_writer.rs:199-243, 270-328. *)
Fixpoint caught_seg (p : profile) (w : world) (sg : segment) (ops : list seg_op) : world * segment * list (list (outcome (result unit))) :=
  match ops with
  | [] => (w, sg, [])
  | op :: rest =>
      let '(w, sg, outs) := match op with
                            | SColumn ci cops => caught_column p w sg ci cops
                            | SClose it => let '(w, sg, r) := segment_close w sg it in (w, sg, [Ret r])
                            end in
      let '(w, sg, more) := caught_seg p w sg rest in (w, sg, outs :: more)
  end.

(** The closes of columns that returned without an error, given how all calls ended. *)
Fixpoint closes_returned (ops : list seg_op) (outs : list (list (outcome (result unit)))) : list column_info :=
  match ops, outs with
  | SColumn ci cops :: ops, o :: outs => returned_closes ci cops o ++ closes_returned ops outs
  | SClose _ :: ops, _ :: outs => closes_returned ops outs
  | _, _ => []
  end.

(** Every close of the whole segment reported success. *)
Fixpoint closes_good (ops : list seg_op) (outs : list (list (outcome (result unit)))) : Prop :=
  match ops, outs with
  | SColumn _ _ :: ops, _ :: outs => closes_good ops outs
  | SClose _ :: ops, o :: outs => o = [Ret (Ok tt)] /\ closes_good ops outs
  | _, _ => True
  end.

Lemma caught_seg_app p ops more : forall w sg, caught_seg p w sg (ops ++ more) =
  let '(w1, sg1, outs) := caught_seg p w sg ops in let '(w2, sg2, outs2) := caught_seg p w1 sg1 more in (w2, sg2, outs ++ outs2).
Proof.
  induction ops as [|op ops IH]; intros w sg; cbn [app caught_seg]; [destruct (caught_seg p w sg more) as [[w2 sg2] o2]; reflexivity|].
  destruct (match op with SColumn ci cops => _ | SClose it => _ end) as [[wa sa] oa]. rewrite IH. destruct (caught_seg p wa sa ops) as [[wb sb] ob]. destruct (caught_seg p wb sb more) as [[wc sc] oc]. reflexivity.
Qed.

(** Columns only: as in C103. *)
Lemma caught_seg_columns p cols : forall w sg, caught_seg p w sg (map (fun c => SColumn (fst c) (snd c)) cols) = caught_columns p w sg cols.
Proof. induction cols as [|[ci cops] cols IH]; intros w sg; cbn [map caught_seg caught_columns fst snd]; [reflexivity|]. fold (caught_column p w sg ci cops). destruct (caught_column p w sg ci cops) as [[wa sa] oa]. rewrite IH. reflexivity. Qed.

Lemma caught_seg_length p ops : forall w sg w1 sg1 outs, caught_seg p w sg ops = (w1, sg1, outs) -> length outs = length ops.
Proof.
  induction ops as [|op ops IH]; intros w sg w1 sg1 outs H; cbn [caught_seg] in H; [injection H as <- <- <-; reflexivity|].
  destruct (match op with SColumn ci cops => _ | SClose it => _ end) as [[wa sa] oa]. destruct (caught_seg p wa sa ops) as [[wb sb] ob] eqn:R. injection H as <- <- <-. cbn [length]. f_equal. eapply IH, R.
Qed.

(** Without panics it is a run as in the other claims. *)
Lemma caught_seg_runs p ops : forall w sg w1 sg1 rs, seg_run p w sg ops = Ret (w1, sg1, rs) -> exists outs, caught_seg p w sg ops = (w1, sg1, outs)
  /\ (Forall (fun o => Forall (fun x => exists r, x = Ret r) o) outs).
Proof.
  induction ops as [|op ops IH]; intros w sg w1 sg1 rs H; cbn [seg_run caught_seg] in *; [injection H as <- <- <-; exists []; auto|].
  destruct (seg_step p w sg op) as [[[wa sa] ra]|k|] eqn:E; cbn [bind] in H; try discriminate. destruct (seg_run p wa sa ops) as [[[wb sb] rb]|k|] eqn:R; cbn [bind] in H; try discriminate. injection H as <- <- <-.
  destruct (IH _ _ _ _ _ R) as (more & RM & FM).
  assert (X : exists oa, match op with SColumn ci cops => caught_column p w sg ci cops | SClose it => let '(w, sg, r) := segment_close w sg it in (w, sg, [Ret r]) end = (wa, sa, oa)
              /\ Forall (fun x => exists r, x = Ret r) oa).
  { destruct op as [ci cops|it]; cbn [seg_step] in E.
    - unfold caught_column. destruct (new_binary_column_writer sg ci) as [sn [cw|]].
      + destruct (column_run p w sn cw cops) as [[[wc sc] rc]|k|] eqn:RC; cbn [bind] in E; try discriminate. injection E as <- <- <-.
        rewrite (C103_not_caught _ _ _ _ _ _ _ _ RC). eexists. split; [reflexivity|]. apply Forall_forall. intros x I. apply in_map_iff in I. destruct I as (r & <- & _). eauto.
      + injection E as <- <- <-. eexists. split; [reflexivity|]. constructor; [eauto|constructor].
    - destruct (segment_close w sg it) as [[wc sc] r]. injection E as <- <- <-. eexists. split; [reflexivity|]. constructor; [eauto|constructor]. }
  destruct X as (oa & -> & FO). rewrite RM. eexists. split; [reflexivity|]. constructor; assumption.
Qed.

Section CaughtDespite.
Context (d : directory) (p : profile) (fd fi : path) (info : segment_info).
Context (NE : fd <> fi).

Lemma half_caught w sg cw op w1 sg1 cw1 o closed : half_inv d fd fi info w sg closed -> enc_ok cw -> caught_step p w sg cw op = ((w1, sg1, cw1), o) ->
  half_inv d fd fi info w1 sg1 (closed ++ returned_closes (cw_info cw) [op] [o]) /\ enc_ok cw1 /\ cw_info cw1 = cw_info cw.
Proof.
  intros (OD & (index & SI & PI) & M) EO H. destruct (caught_step_touch d p fd _ _ _ _ _ _ _ _ OD H) as (X & O1 & EI).
  assert (SI1 : sound d fi w1 (sg_index sg1) (index_file_signature ++ index)) by (rewrite EI; eapply sound_other; eassumption).
  assert (K : meta_ok info (closed ++ returned_closes (cw_info cw) [op] [o]) (sg_meta sg1) /\ enc_ok cw1 /\ cw_info cw1 = cw_info cw).
  { destruct op as [b|]; cbn [caught_step] in H.
    - unfold column_write_at in H. cbn zeta in H.
      assert (LE : layout_of_enc (fst (fst (bin_encode_at sink_write p (cw_encoder cw) b (w, sg_data sg, sg_block_index sg)))) = layout_of_enc (cw_encoder cw)) by (destruct (cw_encoder cw); reflexivity).
      destruct (bin_encode_at sink_write p (cw_encoder cw) b _) as [[e [[wa dt] bi]] r]. cbn [fst snd] in *. injection H as <- <- <- <-.
      cbn [returned_closes]. rewrite app_nil_r. split; [exact M|]. split; [unfold enc_ok in *; cbn [cw_info cw_encoder]; congruence|reflexivity].
    - unfold column_close_at in H. cbn zeta in H.
      assert (LE : layout_of_enc (fst (fst (bin_flush_at sink_write p (cw_encoder cw) (w, sg_data sg, sg_block_index sg)))) = layout_of_enc (cw_encoder cw)
                   /\ forall lay, snd (bin_flush_at sink_write p (cw_encoder cw) (w, sg_data sg, sg_block_index sg)) = Ret (Ok lay) -> lay = layout_of_enc (cw_encoder cw)).
      { destruct (cw_encoder cw) as [e|]; cbn [bin_flush_at fst snd]; [|split; [reflexivity|intros lay [= <-]; reflexivity]].
        destruct (snd (be_flush_at sink_write p e _)) as [[[]|]|j|]; cbn [pure fst snd]; (split; [reflexivity|]); intros lay L; try discriminate L. injection L as <-. reflexivity. }
      destruct (bin_flush_at sink_write p (cw_encoder cw) _) as [[e [[wa dt] bi]] r]. cbn [fst snd] in *. destruct LE as [LE LL].
      assert (EO' : enc_ok (mkcw (cw_info cw) e)) by (unfold enc_ok in *; cbn [cw_info cw_encoder]; congruence).
      destruct r as [[lay|]|j|]; cbn [pure] in H.
      + destruct M as (cols & lays & EM & DC & DL). rewrite EM in H. cbn [md_segment_meta md_columns_layout] in H. injection H as <- <- <- <-.
        cbn [returned_closes sg_meta]. split; [|split; [exact EO'|reflexivity]].
        eexists _, _. split; [reflexivity|]. split; [apply describes_insert, DC|].
        unfold bi_flush. rewrite (LL lay eq_refl). unfold enc_ok in EO. rewrite EO. apply (describes_insert layout_of closed lays (cw_info cw) DL).
      + injection H as <- <- <- <-. cbn [returned_closes sg_meta]. rewrite app_nil_r. auto.
      + injection H as <- <- <- <-. cbn [returned_closes sg_meta]. rewrite app_nil_r. auto.
      + injection H as <- <- <- <-. cbn [returned_closes sg_meta]. rewrite app_nil_r. auto. }
  destruct K as (K1 & K2 & K3). split; [|auto]. split; [exact O1|]. split; [|exact K1]. exists index. split; [exact SI1|congruence].
Qed.

Lemma half_caught_run ops : forall w sg cw w1 sg1 outs closed, half_inv d fd fi info w sg closed -> enc_ok cw -> caught_run p w sg cw ops = (w1, sg1, outs) ->
  half_inv d fd fi info w1 sg1 (closed ++ returned_closes (cw_info cw) ops outs).
Proof.
  induction ops as [|op ops IH]; intros w sg cw w1 sg1 outs closed I EO H; cbn [caught_run] in H.
  - injection H as <- <- <-. cbn [returned_closes]. rewrite app_nil_r. exact I.
  - cbn zeta in H. destruct (caught_step p w sg cw op) as [[[wa sa] ca] o] eqn:E. cbn [fst snd] in H. destruct (caught_run p wa sa ca ops) as [[wb sb] more] eqn:R. injection H as <- <- <-.
    destruct (half_caught _ _ _ _ _ _ _ _ _ I EO E) as (I0 & EO0 & CI). pose proof (IH _ _ _ _ _ _ _ I0 EO0 R) as I1. rewrite CI, <- app_assoc in I1.
    replace (returned_closes (cw_info cw) (op :: ops) (o :: more)) with (returned_closes (cw_info cw) [op] [o] ++ returned_closes (cw_info cw) ops more); [exact I1|].
    cbn [returned_closes]. destruct op, o as [[[]|]|j|]; reflexivity.
Qed.

Lemma half_caught_column w sg ci cops w1 sg1 outs closed : half_inv d fd fi info w sg closed -> caught_column p w sg ci cops = (w1, sg1, outs) ->
  half_inv d fd fi info w1 sg1 (closed ++ returned_closes ci cops outs).
Proof.
  intros I H. unfold caught_column in H. destruct (new_binary_column_writer sg ci) as [sn [cw|]] eqn:NW.
  - destruct (open_inv _ _ _ _ NW) as (-> & CI & EO & _).
    assert (I0 : half_inv d fd fi info w (mksegment (sg_data sg) (sg_index sg) bi_new (sg_meta sg)) closed) by exact I.
    rewrite <- CI. exact (half_caught_run _ _ _ _ _ _ _ _ I0 EO H).
  - injection H as <- <- <-.
    replace (returned_closes ci cops [Ret Err]) with (@nil column_info) by (destruct cops as [|[b|] [|]]; reflexivity). rewrite app_nil_r.
    unfold new_binary_column_writer in NW. destruct (new_binary_encoder _ _ _); [discriminate NW|]. injection NW as <-. exact I.
Qed.

Lemma half_caught_seg ops : forall w sg w1 sg1 outs closed, half_inv d fd fi info w sg closed -> orders_ok ops -> caught_seg p w sg ops = (w1, sg1, outs) -> closes_good ops outs ->
  half_inv d fd fi info w1 sg1 (closed ++ closes_returned ops outs).
Proof.
  induction ops as [|op ops IH]; intros w sg w1 sg1 outs closed I O H A; cbn [caught_seg] in H.
  - injection H as <- <- <-. cbn [closes_returned]. rewrite app_nil_r. exact I.
  - apply Forall_cons_iff in O. destruct O as [O1 O2]. destruct op as [ci cops|it].
    + destruct (caught_column p w sg ci cops) as [[wa sa] oa] eqn:R. destruct (caught_seg p wa sa ops) as [[wb sb] more] eqn:RC. injection H as <- <- <-.
      cbn [closes_good closes_returned] in *. rewrite app_assoc. eapply IH; [eapply half_caught_column; eassumption|eassumption..].
    + destruct (segment_close w sg it) as [[wa sa] r] eqn:C. destruct (caught_seg p wa sa ops) as [[wb sb] more] eqn:RC. injection H as <- <- <-.
      cbn [closes_good closes_returned] in *. destruct A as [A1 A2]. injection A1 as ->. eapply IH; [eapply (half_close d); eassumption|eassumption..].
Qed.

Lemma caught_seg_touches ops : forall w sg w1 sg1 outs, both_open d fd fi w sg -> caught_seg p w sg ops = (w1, sg1, outs) ->
  touches (fun f => f = fd \/ f = fi) w w1 /\ both_open d fd fi w1 sg1.
Proof.
  induction ops as [|op ops IH]; intros w sg w1 sg1 outs B H; cbn [caught_seg] in H; [injection H as <- <- <-; split; [apply touches_refl|exact B]|].
  destruct (match op with SColumn ci cops => _ | SClose it => _ end) as [[wa sa] oa] eqn:E.
  destruct (caught_seg p wa sa ops) as [[wb sb] more] eqn:R. injection H as <- <- <-.
  assert (K : touches (fun f => f = fd \/ f = fi) w wa /\ both_open d fd fi wa sa).
  { destruct op as [ci cops|it].
    - destruct B as [BD BI]. destruct (caught_columns p w sg [(ci, cops)]) as [[wx sx] ox] eqn:CC. pose proof CC as CC0. cbn [caught_columns] in CC0. fold (caught_column p w sg ci cops) in CC0.
      rewrite E in CC0. injection CC0 as <- <- _. destruct (caught_columns_touch d p fd _ _ _ _ _ _ BD CC) as (X & OD & EI). split; [|split; [exact OD|]; rewrite EI; eapply opened_other; eassumption].
      destruct X as (_ & m & L & F & _). exists m. split; [exact L|]. eapply Forall_impl; [|exact F]. cbn. tauto.
    - destruct (segment_close w sg it) as [[wx sx] r] eqn:C. injection E as <- <- <-. apply (seg_run_touches d p fd fi NE [SClose it] w sg wx sx [r] B). cbn [seg_run seg_step]. rewrite C. reflexivity. }
  destruct K as (K1 & K2). destruct (IH _ _ _ _ _ K2 R) as (K3 & K4). split; [eapply touches_trans; eassumption|exact K4].
Qed.
End CaughtDespite.

(** C75, with panics: columns may fail to open, calls may fail or panic, and more
    calls may follow.  If the segment is closed without an error, the index file
    describes the columns with a close that returned without an error, and no others. *)
Theorem C75_caught : forall d p w base info w1 sg ops it w2 sg2 outs,
  0 < wd_max w -> is_id (si_segment_id info) -> segment_new w base info = (w1, Ok sg) ->
  orders_ok (ops ++ [SClose it]) -> caught_seg p w1 sg (ops ++ [SClose it]) = (w2, sg2, outs) -> closes_good (ops ++ [SClose it]) outs ->
  exists file m, directory_after d (wd_log w2) (index_path base (si_segment_id info)) = Some file
    /\ ((N.of_nat (length file) < 18446744073709551616)%N -> read_index_file file = Some m) /\ describes_segment info (closes_returned (ops ++ [SClose it]) outs) m.
Proof.
  intros d p w base info w1 sg ops it w2 sg2 outs M ID NW O R A. destruct (C49_distinct base _ _ ID ID) as (_ & _ & NE).
  pose proof (segment_new_ok d p w base info w1 sg M ID NW) as (blocks & index & _ & _ & (SD & SI & _ & PI & MO)).
  assert (I : half_inv d (data_path base (si_segment_id info)) (index_path base (si_segment_id info)) info w1 sg []).
  { split; [eapply sound_opened; exact SD|]. split; [exists index; auto|exact MO]. }
  rewrite caught_seg_app in R. destruct (caught_seg p w1 sg ops) as [[wa sa] oa] eqn:RA. cbn [caught_seg] in R.
  destruct (segment_close wa sa it) as [[wb sb] r] eqn:C. injection R as <- <- <-.
  apply Forall_app in O. destruct O as [O1 O2]. apply Forall_cons_iff in O2. destruct O2 as [O2 _].
  assert (S : closes_good ops oa /\ r = Ok tt /\ closes_returned (ops ++ [SClose it]) (oa ++ [[Ret r]]) = closes_returned ops oa).
  { pose proof (caught_seg_length _ _ _ _ _ _ _ RA) as L. clear -A L. revert oa A L. induction ops as [|[ci cops|it0] ops IH]; intros [|o oa] A L; cbn in L; try discriminate L; cbn [app closes_good closes_returned] in *.
    - destruct A as [A _]. injection A as ->. auto.
    - destruct (IH oa A ltac:(lia)) as (K1 & K2 & K3). rewrite K3. auto.
    - destruct A as [A0 A]. destruct (IH oa A ltac:(lia)) as (K1 & K2 & K3). rewrite K3. auto. }
  destruct S as (A1 & -> & ->).
  pose proof (half_caught_seg d p _ _ info NE _ _ _ _ _ _ _ I O1 RA A1) as I2. cbn [app] in I2.
  destruct (half_close d _ _ info NE _ _ _ _ _ _ I2 O2 C) as (_ & m & ix & MO3 & DI).
  eexists. exists m. split; [exact DI|]. split; [|apply meta_describes, MO3]. intros SZ.
  replace (N.of_nat (length (index_file_signature ++ ix))) with (N.of_nat (length (index_file_signature ++ ix) + 0)) by (rewrite Nat.add_0_r; reflexivity).
  rewrite read_off_by; [cbn [Nat.leb skipn]; eapply meta_ok_readable, MO3|reflexivity|rewrite app_length; cbn; lia|].
  rewrite !app_length, le_length in SZ. rewrite !app_length. lia.
Qed.
Print Assumptions C75_caught.

(** C50, with panics: no other file is touched, whatever fails or panics. *)
Theorem C50_caught : forall d p w base info w1 sg ops w2 sg2 outs f,
  0 < wd_max w -> is_id (si_segment_id info) -> segment_new w base info = (w1, Ok sg) -> caught_seg p w1 sg ops = (w2, sg2, outs) ->
  f <> data_path base (si_segment_id info) -> f <> index_path base (si_segment_id info) ->
  directory_after d (wd_log w2) f = directory_after d (wd_log w) f
  /\ forall w3 r3, segment_sync w2 sg2 = (w3, r3) -> directory_after d (wd_log w3) f = directory_after d (wd_log w) f.
Proof.
  intros d p w base info w1 sg ops w2 sg2 outs f M ID NW R ND NI. destruct (C49_distinct base _ _ ID ID) as (_ & _ & NE).
  destruct (segment_new_touches d _ _ _ _ _ M ID NW) as (T & B).
  assert (NP : ~ (f = data_path base (si_segment_id info) \/ f = index_path base (si_segment_id info))) by tauto.
  assert (D1 := touches_dir _ d _ _ _ T NP). destruct (caught_seg_touches d p _ _ NE _ _ _ _ _ _ B R) as (T2 & B2).
  assert (D2 := touches_dir _ d _ _ _ T2 NP). split; [congruence|]. intros w3 r3 S3.
  assert (D3 := touches_dir _ d _ _ _ (segment_sync_touches d _ _ NE _ _ _ _ B2 S3) NP). congruence.
Qed.
Print Assumptions C50_caught.

(** The first close fails, the second one panics, a column is not opened, and the
    last column is closed. *)
Definition ex_mixed : list seg_op :=
  [SColumn ex_a [CWrite ex_buf; CClose; CWrite ex_buf];
   SColumn ex_stuck [CWrite (mk_bin [9]%N [0; 1]%N None); CWrite (mk_bin [] (repeat 0%N 129) None); CClose];
   SClose ex_it;
   SColumn (mkcinfo [99]%N TInt32 BitPacked NoIndex false) [CClose];
   SColumn ex_b [CWrite ex_buf; CClose]; SClose ex_it].

Definition ex_mixed_run : option (list (list (outcome (result unit))) * world) :=
  match segment_new (mkworld [] [None; None; None; None; None; Some 0] 50) ex_base ex_info with
  | (w1, Ok sg) => let '(w2, sg2, outs) := caught_seg Debug w1 sg ex_mixed in Some (outs, w2)
  | _ => None
  end.

Example C75_caught_example :
  match ex_mixed_run with
  | Some (outs, w2) =>
      outs = [[Ret (Ok tt); Ret Err; Ret (Ok tt)]; [Ret (Ok tt); Ret (Ok tt); Panic PAssert]; [Ret (Ok tt)]; [Ret Err]; [Ret (Ok tt); Ret (Ok tt)]; [Ret (Ok tt)]]
      /\ closes_good ex_mixed outs /\ closes_returned ex_mixed outs = [ex_b]
      /\ match directory_after (fun _ => None) (wd_log w2) (index_path ex_base (si_segment_id ex_info)) with
         | Some file => match read_index_file file with Some (mkmeta (Some s) lays) => map fst (sm_columns_meta s) = [[98]]%N /\ map fst lays = [[98]]%N | _ => False end
         | None => False end
      /\ directory_after (fun f => if path_dec f [120]%N then Some [9]%N else None) (wd_log w2) [120]%N = Some [9]%N
  | None => False
  end.
Proof. vm_compute. repeat split. Qed.
