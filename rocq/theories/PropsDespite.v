(** C75: the metadata of a segment some of whose columns failed. *)
From Verif Require Import Base Buffers Sink PrimEnc BinEnc Io SpecIo IoProofs PropsIo Metadata Proto SpecProto ProtoProofs ReadBlock BlockProofs Names PropsNames Segment SpecSegment
  SegmentProofs SegmentRunProofs PropsSegment PropsSegmentEx.
From Coq Require Import Permutation.
Open Scope nat_scope.

(** The closes among [cops] that reported success. *)
Fixpoint closes_reported (ci : column_info) (cops : list col_op) (rs : list (result unit)) : list column_info :=
  match cops, rs with
  | CClose :: cops', Ok _ :: rs' => ci :: closes_reported ci cops' rs'
  | _ :: cops', _ :: rs' => closes_reported ci cops' rs'
  | _, _ => []
  end.

(** The columns of a whole history whose close reported success, given the
    reports of all calls; opening a column is a call of its own, and nothing can
    be done with a column that was not opened. *)
Fixpoint reported_closed (ops : list seg_op) (rs : list (result unit)) : list column_info :=
  match ops, rs with
  | SColumn ci cops :: ops', Ok _ :: rs' =>
      closes_reported ci cops (firstn (length cops) rs') ++ reported_closed ops' (skipn (length cops) rs')
  | _ :: ops', _ :: rs' => reported_closed ops' rs'
  | _, _ => []
  end.

(** Every close of the whole segment reported success. *)
Fixpoint segment_closes_ok (ops : list seg_op) (rs : list (result unit)) : Prop :=
  match ops, rs with
  | SColumn ci cops :: ops', Ok _ :: rs' => segment_closes_ok ops' (skipn (length cops) rs')
  | SColumn _ _ :: ops', Err :: rs' => segment_closes_ok ops' rs'
  | SClose _ :: ops', r :: rs' => r = Ok tt /\ segment_closes_ok ops' rs'
  | _, _ => True
  end.

Section Despite.
Context (d : directory) (p : profile) (fd fi : path) (info : segment_info).
Context (NE : fd <> fi).

(** As [seg_inv], but nothing is known about the data file. *)
Definition half_inv (w : world) (sg : segment) (closed : list column_info) : Prop :=
  opened d fd w (sg_data sg)
  /\ (exists index, sound d fi w (sg_index sg) (index_file_signature ++ index)
       /\ wr_pos (sg_index sg) = N.of_nat (length (index_file_signature ++ index)))
  /\ meta_ok info closed (sg_meta sg).

Lemma half_step w sg cw o w1 sg1 cw1 r closed :
  half_inv w sg closed -> enc_ok cw -> column_step p w sg cw o = Ret (w1, sg1, cw1, r) ->
  half_inv w1 sg1 (closed ++ closes_reported (cw_info cw) [o] [r]) /\ enc_ok cw1 /\ cw_info cw1 = cw_info cw.
Proof.
  intros (OD & (index & SI & PI) & M) EO H. destruct o as [b|]; cbn [column_step] in H.
  - unfold column_write in H. destruct (bin_encode sink_write p (cw_encoder cw) b _) as [[[e [[w0 dt] bi]] res]|k|] eqn:E; cbn [bind] in H; try discriminate.
    injection H as <- <- <- ->. destruct (bin_encode_feed _ _ _ _ _ _ _ _ E) as (L & bl & F & _).
    destruct (feed_touch d fd _ _ _ _ _ _ _ _ F OD) as (X & O1).
    split; [|split; [unfold enc_ok in *; cbn [cw_info cw_encoder]; congruence|reflexivity]].
    replace (closes_reported (cw_info cw) [CWrite b] [r]) with (@nil column_info) by (destruct r; reflexivity). rewrite app_nil_r.
    split; [exact O1|]. cbn [sg_data sg_index sg_meta]. split; [|exact M]. exists index. split; [eapply sound_other; eassumption|exact PI].
  - unfold column_close in H. destruct (bin_flush sink_write p (cw_encoder cw) _) as [[[e [[w0 dt] bi]] res]|k|] eqn:E; cbn [bind] in H; try discriminate.
    destruct (bin_flush_feed _ _ _ _ _ _ _ E) as (L & bl & r0 & F & -> & _).
    destruct (feed_touch d fd _ _ _ _ _ _ _ _ F OD) as (X & O1).
    assert (SI1 : sound d fi w0 (sg_index sg) (index_file_signature ++ index)) by (eapply sound_other; eassumption).
    destruct r0 as [[]|].
    + destruct M as (cols & lays & EM & DC & DL). rewrite EM in H. cbn [md_segment_meta md_columns_layout] in H. injection H as <- <- <- <-.
      split; [|split; [unfold enc_ok in *; cbn [cw_info cw_encoder]; congruence|reflexivity]].
      cbn [closes_reported]. split; [exact O1|]. cbn [sg_data sg_index sg_meta]. split; [exists index; split; [exact SI1|exact PI]|].
      eexists _, _. split; [reflexivity|]. split; [apply describes_insert, DC|].
      unfold bi_flush. unfold enc_ok in EO. rewrite EO. apply (describes_insert layout_of closed lays (cw_info cw) DL).
    + injection H as <- <- <- <-. split; [|split; [unfold enc_ok in *; cbn [cw_info cw_encoder]; congruence|reflexivity]].
      cbn [closes_reported]. rewrite app_nil_r. split; [exact O1|]. cbn [sg_data sg_index sg_meta].
      split; [exists index; split; [exact SI1|exact PI]|exact M].
Qed.

Lemma half_column ops : forall w sg cw w1 sg1 rs closed,
  half_inv w sg closed -> enc_ok cw -> column_run p w sg cw ops = Ret (w1, sg1, rs) ->
  half_inv w1 sg1 (closed ++ closes_reported (cw_info cw) ops rs) /\ length rs = length ops.
Proof.
  induction ops as [|o ops IH]; intros w sg cw w1 sg1 rs closed I EO H; cbn [column_run] in H.
  - injection H as <- <- <-. cbn [closes_reported]. rewrite app_nil_r. split; [exact I|reflexivity].
  - destruct (column_step p w sg cw o) as [[[[w0 sg0] cw0] res]|k|] eqn:E; cbn [bind] in H; try discriminate.
    destruct (column_run p w0 sg0 cw0 ops) as [[[w2 sg2] more]|k|] eqn:R; cbn [bind] in H; try discriminate. injection H as <- <- <-.
    destruct (half_step _ _ _ _ _ _ _ _ _ I EO E) as (I0 & EO0 & CI).
    destruct (IH _ _ _ _ _ _ _ I0 EO0 R) as (I1 & L). rewrite CI, <- app_assoc in I1. split; [|cbn [length]; rewrite L; reflexivity].
    replace (closes_reported (cw_info cw) (o :: ops) (res :: more))
      with (closes_reported (cw_info cw) [o] [res] ++ closes_reported (cw_info cw) ops more) by (destruct o, res; reflexivity).
    exact I1.
Qed.

Lemma half_close w sg it w1 sg1 closed :
  half_inv w sg closed -> (forall l, Permutation l (it_columns it l)) /\ (forall l, Permutation l (it_layouts it l)) ->
  segment_close w sg it = (w1, sg1, Ok tt) ->
  half_inv w1 sg1 closed
  /\ exists m index, meta_ok info closed m
     /\ directory_after d (wd_log w1) fi
        = Some ((index_file_signature ++ index) ++ encode_metadata m ++ le_bytes 8 (N.of_nat (length (index_file_signature ++ index)))).
Proof.
  intros (OD & (index & SI & PI) & (cols & lays & EM & DC & DL)) (OC & OL) H. unfold segment_close in H. rewrite EM in H. cbn [md_segment_meta md_columns_layout sm_segment_id sm_database_name sm_table_name sm_shard_id sm_compressed_size sm_uncompressed_size sm_num_rows sm_columns_meta] in H.
  set (m := mkmeta (Some (mksmeta (si_segment_id info) (si_database_name info) (si_table_name info) (si_shard_id info) 0 0 (si_num_rows info) (it_columns it cols))) (it_layouts it lays)) in *.
  cbn zeta in H. assert (NE' : fi <> fd) by congruence.
  destruct (writer_write_block w (sg_index sg) (encode_metadata m)) as [[wa ia] [[]|]] eqn:Wa; [|discriminate].
  destruct (write_touch _ _ _ _ _ _ _ _ (sound_opened _ _ _ _ _ SI) Wa) as (Xa & _ & Pa & _).
  pose proof (write_sound _ _ _ _ _ _ _ _ SI Wa) as Sa.
  destruct (writer_write_block wa ia _) as [[wb ib] [[]|]] eqn:Wb; [|discriminate].
  destruct (write_touch _ _ _ _ _ _ _ _ (sound_opened _ _ _ _ _ Sa) Wb) as (Xb & _ & Pb & _).
  pose proof (write_sound _ _ _ _ _ _ _ _ Sa Wb) as Sb.
  destruct (writer_flush wb ib) as [[wc ic] [[]|]] eqn:Wc; [|discriminate].
  destruct (flush_touch _ _ _ _ _ _ _ (sound_opened _ _ _ _ _ Sb) Wc) as (Xc & _ & Pc & _).
  pose proof (flush_keeps_sound _ _ _ _ _ _ _ Sb Wc) as Sc. pose proof (flush_sound _ _ _ _ _ _ _ Sb Wc) as Fc.
  assert (ODc : opened d fd wc (sg_data sg)).
  { eapply opened_other; [exact Xc|exact NE'|]. eapply opened_other; [exact Xb|exact NE'|]. eapply opened_other; [exact Xa|exact NE'|]. exact OD. }
  destruct (writer_flush wc (sg_data sg)) as [[wd dt] r] eqn:Wd. injection H as <- <- ->.
  destruct (flush_touch _ _ _ _ _ _ _ ODc Wd) as (Xd & Od & _).
  unfold writer_pos in *. rewrite PI in *. rewrite <- app_assoc in Sc, Fc. split.
  - split; [exact Od|]. cbn [sg_data sg_index sg_meta]. split; [|exists cols, lays; auto].
    exists (index ++ encode_metadata m ++ le_bytes 8 (N.of_nat (length (index_file_signature ++ index)))). rewrite app_assoc.
    split; [eapply sound_other; [exact Xd|exact NE|exact Sc]|]. rewrite Pc, Pb, Pa. rewrite !app_length, le_length. lia.
  - exists m, index. split; [exists (it_columns it cols), (it_layouts it lays); split; [reflexivity|]; split; eapply describes_perm; eauto|].
    rewrite (extends_dir d fd fi _ _ Xd NE). exact Fc.
Qed.

Lemma half_run ops : forall w sg w1 sg1 rs more_ops more_rs closed,
  half_inv w sg closed -> orders_ok ops -> seg_run p w sg ops = Ret (w1, sg1, rs) ->
  segment_closes_ok (ops ++ more_ops) (rs ++ more_rs) ->
  half_inv w1 sg1 (closed ++ reported_closed ops rs)
  /\ segment_closes_ok more_ops more_rs
  /\ reported_closed (ops ++ more_ops) (rs ++ more_rs) = reported_closed ops rs ++ reported_closed more_ops more_rs.
Proof.
  induction ops as [|o ops IH]; intros w sg w1 sg1 rs more_ops more_rs closed I O H A; cbn [seg_run] in H.
  - injection H as <- <- <-. cbn [reported_closed app]. rewrite app_nil_r. auto.
  - destruct (seg_step p w sg o) as [[[w0 sg0] r0]|k|] eqn:E; cbn [bind] in H; try discriminate.
    destruct (seg_run p w0 sg0 ops) as [[[w2 sg2] more]|k|] eqn:R; cbn [bind] in H; try discriminate. injection H as <- <- <-.
    apply Forall_cons_iff in O. destruct O as [O1 O2]. destruct o as [ci cops|it]; cbn [seg_step] in E.
    + destruct (new_binary_column_writer sg ci) as [sgo [cw|]] eqn:EN.
      * destruct (open_inv _ _ _ _ EN) as (-> & CI & EO & _).
        destruct (column_run p w _ cw cops) as [[[wc sgc] rc]|k|] eqn:RC; cbn [bind] in E; try discriminate. injection E as <- <- <-.
        assert (I0 : half_inv w (mksegment (sg_data sg) (sg_index sg) bi_new (sg_meta sg)) closed) by exact I.
        destruct (half_column _ _ _ _ _ _ _ _ I0 EO RC) as (I1 & L). rewrite CI in I1.
        cbn [app segment_closes_ok reported_closed] in A |- *. rewrite <- app_assoc in A |- *.
        rewrite <- L in A |- *.
        assert (S1 : forall x, skipn (length rc) (rc ++ x) = x).
        { intros x. rewrite skipn_app, skipn_all, Nat.sub_diag. reflexivity. }
        assert (S2 : forall x, firstn (length rc) (rc ++ x) = rc).
        { intros x. rewrite firstn_app, firstn_all, Nat.sub_diag. cbn [firstn]. apply app_nil_r. }
        rewrite S1 in A. rewrite !S1, !S2.
        destruct (IH _ _ _ _ _ _ _ _ I1 O2 R A) as (I2 & A2 & E2). rewrite E2, app_assoc. split; [exact I2|]. split; [exact A2|].
        rewrite app_assoc. reflexivity.
      * injection E as <- <- <-. cbn [app segment_closes_ok reported_closed] in A |- *.
        assert (I0 : half_inv w sgo closed).
        { unfold new_binary_column_writer in EN. change segment_block_size with 128%N in EN.
          destruct (new_binary_encoder (ci_encoding ci) 128 (ci_nullable ci)); [discriminate EN|]. injection EN as <-. exact I. }
        exact (IH _ _ _ _ _ _ _ _ I0 O2 R A).
    + destruct (segment_close w sg it) as [[wc sgc] r] eqn:C. injection E as <- <- <-.
      cbn [app segment_closes_ok reported_closed] in A |- *. destruct A as [-> A].
      destruct (half_close _ _ _ _ _ _ I O1 C) as (I1 & _). exact (IH _ _ _ _ _ _ _ _ I1 O2 R A).
Qed.
End Despite.

(** C75.  Columns may fail to open, calls on columns may fail and more calls may
    follow; as long as every close of the segment reports success, the index file
    describes the columns whose close reported success, the last of each name,
    and no others. *)
Theorem C75_failed_columns_absent : forall d p w base info w1 sg ops it w2 sg2 rs file,
  0 < wd_max w -> is_id (si_segment_id info) -> segment_new w base info = (w1, Ok sg) ->
  orders_ok (ops ++ [SClose it]) -> seg_run p w1 sg (ops ++ [SClose it]) = Ret (w2, sg2, rs) ->
  segment_closes_ok (ops ++ [SClose it]) rs ->
  directory_after d (wd_log w2) (index_path base (si_segment_id info)) = Some file ->
  (N.of_nat (length file) < 18446744073709551616)%N ->
  exists s lays,
    read_index_file file = Some (mkmeta (Some s) lays)
    /\ sm_segment_id s = si_segment_id info /\ sm_database_name s = si_database_name info
    /\ sm_table_name s = si_table_name info /\ sm_shard_id s = si_shard_id info /\ sm_num_rows s = si_num_rows info
    /\ entries column_entry (reported_closed (ops ++ [SClose it]) rs) (sm_columns_meta s)
    /\ entries layout_entry (reported_closed (ops ++ [SClose it]) rs) lays.
Proof.
  intros d p w base info w1 sg ops it w2 sg2 rs file M ID N O H A DF SZ.
  destruct (C49_distinct base _ _ ID ID) as (_ & _ & NE).
  pose proof (segment_new_ok d p w base info w1 sg M ID N) as (blocks & index & _ & _ & (SD & SI & _ & PI & MO)).
  assert (I : half_inv d (data_path base (si_segment_id info)) (index_path base (si_segment_id info)) info w1 sg []).
  { split; [eapply sound_opened; exact SD|]. split; [exists index; auto|exact MO]. }
  rewrite seg_run_app in H.
  destruct (seg_run p w1 sg ops) as [[[wa sga] ra]|k|] eqn:R; cbn [bind] in H; try discriminate H.
  cbn [seg_run seg_step] in H. destruct (segment_close wa sga it) as [[wb sgb] r] eqn:C. cbn [bind app] in H. injection H as <- <- <-.
  apply Forall_app in O. destruct O as [O1 O2]. apply Forall_cons_iff in O2. destruct O2 as [O2 _].
  destruct (half_run d p _ _ info NE ops _ _ _ _ _ [SClose it] [r] [] I O1 R A) as (I1 & (-> & _) & E). cbn [app] in I1.
  cbn [reported_closed] in E. rewrite app_nil_r in E. rewrite E.
  destruct (half_close d _ _ info NE _ _ _ _ _ _ I1 O2 C) as (_ & m & ix & MO1 & DI). rewrite DI in DF. apply some_inv in DF. subst file.
  set (pre := index_file_signature ++ ix) in *.
  destruct (footer_reads pre (encode_metadata m)) as (E1 & E2 & E3); [clear -SZ; rewrite app_length in SZ; lia|]. cbn zeta in E1, E2, E3.
  set (file := pre ++ encode_metadata m ++ le_bytes 8 (N.of_nat (length pre))) in *.
  assert (LP : length pre = 12 + length ix) by (unfold pre; rewrite app_length; reflexivity).
  assert (RD : read_index_file file = Some m).
  { unfold read_index_file. cbn zeta. rewrite E1, Nat2N.id.
    rewrite (proj2 (Nat.leb_le 20 _)) by lia. rewrite (proj2 (Nat.leb_le 12 _)) by lia. rewrite (proj2 (Nat.leb_le (length pre) _)) by lia. cbn [andb].
    replace (firstn 12 file) with index_file_signature by (unfold file, pre; rewrite <- app_assoc; reflexivity).
    destruct (list_eq_dec N.eq_dec _ _) as [_|n]; [|exfalso; apply n; reflexivity]. rewrite E3. eapply meta_ok_readable, MO1. }
  destruct MO1 as (cols & lays & -> & DC & DL).
  eexists _, lays. split; [exact RD|]. cbn [sm_segment_id sm_database_name sm_table_name sm_shard_id sm_num_rows sm_columns_meta].
  split; [reflexivity|]. split; [reflexivity|]. split; [reflexivity|]. split; [reflexivity|]. split; [reflexivity|].
  split; eapply describes_entries; try eassumption; intros ci; [apply column_meta_entry|reflexivity].
Qed.
Print Assumptions C75_failed_columns_absent.

(** The write of the first block fails, which the close of column "a" reports; a
    column of an unsupported encoding is refused; column "b" succeeds. *)
Definition ex_failing : list seg_op :=
  [SColumn ex_a [CWrite ex_buf; CClose; CWrite ex_buf]; SColumn (mkcinfo [99]%N TInt32 BitPacked NoIndex false) [CClose];
   SColumn ex_b [CWrite ex_buf; CClose]].

Theorem C75_witness :
  match run_from Debug (mkworld [] [None; None; None; None; None; Some 0] 50) ex_base ex_info (ex_failing ++ [SClose ex_it]) with
  | Some (w, _, rs) =>
      rs = [Ok tt; Ok tt; Err; Ok tt; Err; Ok tt; Ok tt; Ok tt; Ok tt]
      /\ segment_closes_ok (ex_failing ++ [SClose ex_it]) rs
      /\ reported_closed (ex_failing ++ [SClose ex_it]) rs = [ex_b]
      /\ match directory_after (fun _ => None) (wd_log w) (index_path ex_base (si_segment_id ex_info)) with
         | Some file =>
             match read_index_file file with
             | Some (mkmeta (Some s) lays) => map fst (sm_columns_meta s) = [[98]]%N /\ map fst lays = [[98]]%N
             | _ => False end
         | None => False end
  | None => False end.
Proof. vm_compute. repeat split. Qed.
Print Assumptions C75_witness.
