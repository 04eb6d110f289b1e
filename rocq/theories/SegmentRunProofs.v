(** Histories of a segment writer. *)
From Verif Require Import Base Buffers Sink PrimEnc BinEnc Io SpecIo IoProofs PropsIo Metadata Proto SpecProto ProtoProofs ReadBlock
  BlockProofs Names PropsNames Segment SpecSegment SegmentProofs.
From Coq Require Import Permutation.
Open Scope nat_scope.

(** * One writer beside another *)

Definition opened (d : directory) (f : path) (w : world) (wr : writer) : Prop :=
  0 < wd_max w /\ tf_path (wr_file wr) = f /\ exists c, holds d w f c.

Lemma sound_opened d f w wr done : sound d f w wr done -> opened d f w wr.
Proof. intros (M & P & c & H & _). split; [exact M|]. split; [exact P|]. exists c. exact H. Qed.

Lemma extends_dir d f g w w' : extends f w w' -> f <> g -> directory_after d (wd_log w') g = directory_after d (wd_log w) g.
Proof.
  intros (_ & more & L & F & _) NE. rewrite L, directory_after_app. apply directory_after_other.
  eapply Forall_impl; [|exact F]. cbn. intros e [E _]. congruence.
Qed.

Lemma holds_other d f g w w' c : extends f w w' -> f <> g -> holds d w g c -> holds d w' g c.
Proof. intros E NE H. unfold holds. rewrite (extends_dir d f g w w' E NE). exact H. Qed.

Lemma sound_other d f g w w' wr done : extends f w w' -> f <> g -> sound d g w wr done -> sound d g w' wr done.
Proof.
  intros E NE (M & P & c & H & X). split; [destruct E as (-> & _); exact M|]. split; [exact P|]. exists c.
  split; [eapply holds_other; eassumption|exact X].
Qed.

Lemma opened_other d f g w w' wr : extends f w w' -> f <> g -> opened d g w wr -> opened d g w' wr.
Proof.
  intros E NE (M & P & c & H). split; [destruct E as (-> & _); exact M|]. split; [exact P|]. exists c. eapply holds_other; eassumption.
Qed.

Lemma write_touch d f w wr b w1 wr1 r : opened d f w wr -> writer_write_block w wr b = (w1, wr1, r) ->
  extends f w w1 /\ opened d f w1 wr1 /\ wr_pos wr1 = (wr_pos wr + N.of_nat (length b))%N
  /\ (all_succeed w -> tf_err (wr_file wr) = false -> r = Ok tt)
  /\ (tf_err (wr_file wr) = false -> tf_err (wr_file wr1) = false).
Proof.
  intros (M & P & c & H) E. unfold writer_write_block in E. destruct (tk_write_all _ _ _ _) as [[a f1] rr] eqn:W. injection E as <- <- <-.
  rewrite <- P in H. destruct (tk_write_all_spec _ _ _ _ _ _ _ _ _ W H (le_n _) M) as (P1 & HE & HX1 & _ & _ & _ & _ & (k & HK & _) & HA).
  rewrite P in *. cbn [wr_file wr_pos]. split; [exact HE|]. split.
  - split; [destruct HE as (-> & _); exact M|]. split; [exact P1|]. eexists. exact HK.
  - split; [reflexivity|]. split; [exact HA|exact HX1].
Qed.

Lemma write_sound d f w wr done b w1 wr1 : sound d f w wr done -> writer_write_block w wr b = (w1, wr1, Ok tt) ->
  sound d f w1 wr1 (done ++ b).
Proof.
  intros H E. pose proof (writer_step_sound d f w wr done (WBlock b) w1 wr1 (Ok tt) H E (or_intror eq_refl)) as X.
  cbn [blocks_of] in X. rewrite app_nil_r in X. exact X.
Qed.

Lemma flush_touch d f w wr w1 wr1 r : opened d f w wr -> writer_flush w wr = (w1, wr1, r) ->
  extends f w w1 /\ opened d f w1 wr1 /\ wr_pos wr1 = wr_pos wr
  /\ (all_succeed w -> tf_err (wr_file wr) = false -> r = Ok tt)
  /\ (r = Ok tt -> tf_busy (wr_file wr1) = None) /\ tf_err (wr_file wr1) = false.
Proof.
  intros (M & P & c & H) E. unfold writer_flush in E. destruct (tk_flush _ _) as [[a f1] rr] eqn:W. injection E as <- <- <-.
  rewrite <- P in H. destruct (tk_flush_spec _ _ _ _ _ _ _ W H) as (P1 & HE & X1 & HT & HB & HO & (k & HK) & HA).
  rewrite P in *. cbn [wr_file wr_pos]. split; [exact HE|]. split.
  - split; [destruct HE as (-> & _); exact M|]. split; [exact P1|]. eexists. exact HK.
  - split; [reflexivity|]. split; [exact HA|]. split; [|exact X1]. intros E. apply HB, HO, E.
Qed.

Lemma flush_keeps_sound d f w wr done w1 wr1 : sound d f w wr done -> writer_flush w wr = (w1, wr1, Ok tt) -> sound d f w1 wr1 done.
Proof.
  intros H E. pose proof (writer_step_sound d f w wr done WFlush w1 wr1 (Ok tt) H E (or_intror eq_refl)) as X.
  cbn [blocks_of] in X. rewrite app_nil_r in X. exact X.
Qed.

Lemma sync_touch d f w wr w1 wr1 r : opened d f w wr -> writer_sync w wr = (w1, wr1, r) ->
  extends f w w1 /\ opened d f w1 wr1 /\ wr_pos wr1 = wr_pos wr.
Proof.
  intros (M & P & c & H) E. unfold writer_sync in E. destruct (tk_sync_all _ _) as [[a f1] rr] eqn:W. injection E as <- <- <-.
  rewrite <- P in H. destruct (tk_sync_all_spec _ _ _ _ _ _ _ W H) as (P1 & HE & _ & _ & (k & HK) & _).
  rewrite P in *. cbn [wr_file wr_pos]. split; [exact HE|]. split; [|reflexivity].
  split; [destruct HE as (-> & _); exact M|]. split; [exact P1|]. eexists. exact HK.
Qed.

(** * Blocks going to the data file *)

(** End offsets of blocks that start at [from]. *)
Fixpoint ends (from : N) (blocks : list (N * list N)) : list N :=
  match blocks with
  | [] => []
  | (_, b) :: rest => (from + N.of_nat (length b))%N :: ends (from + N.of_nat (length b)) rest
  end.

Definition bytes_in (blocks : list (N * list N)) : list N := concat (map snd blocks).

Lemma bytes_in_app a b : bytes_in (a ++ b) = bytes_in a ++ bytes_in b.
Proof. unfold bytes_in. rewrite map_app, concat_app. reflexivity. Qed.

Lemma ends_app a : forall from b, ends from (a ++ b) = ends from a ++ ends (from + N.of_nat (length (bytes_in a))) b.
Proof.
  induction a as [|[r x] a IH]; intros from b; cbn [ends app]; [cbn; rewrite N.add_0_r; reflexivity|].
  rewrite IH. f_equal. f_equal. f_equal. change (bytes_in ((r, x) :: a)) with (x ++ bytes_in a). rewrite app_length. lia.
Qed.

Lemma feed_sink d f bl : forall w wr bi w1 wr1 bi1 done,
  feed sink_write (w, wr, bi) bl = ((w1, wr1, bi1), Ok tt) -> sound d f w wr done ->
  extends f w w1 /\ sound d f w1 wr1 (done ++ bytes_in bl)
  /\ wr_pos wr1 = (wr_pos wr + N.of_nat (length (bytes_in bl)))%N
  /\ bi1 = mkbi (bi_offset bi ++ ends (wr_pos wr) bl) (bi_row_id bi ++ map fst bl).
Proof.
  induction bl as [|[r b] bl IH]; intros w wr bi w1 wr1 bi1 done F H.
  - cbn in F. injection F as <- <- <-. cbn. rewrite !app_nil_r, N.add_0_r. split; [apply extends_refl|]. split; [exact H|]. split; [reflexivity|]. destruct bi; reflexivity.
  - cbn [feed] in F. unfold sink_write at 1 in F. destruct (writer_write_block w wr b) as [[w0 wr0] [[]|]] eqn:W; [|discriminate].
    destruct (write_touch _ _ _ _ _ _ _ _ (sound_opened _ _ _ _ _ H) W) as (E0 & _ & P0 & _).
    pose proof (write_sound _ _ _ _ _ _ _ _ H W) as H0.
    destruct (IH _ _ _ _ _ _ _ F H0) as (E1 & H1 & P1 & B1).
    split; [eapply extends_trans; eassumption|]. change (bytes_in ((r, b) :: bl)) with (b ++ bytes_in bl).
    rewrite <- app_assoc in H1. split; [exact H1|]. split; [rewrite P1, P0, app_length; lia|].
    rewrite B1. unfold index_block, writer_pos. cbn [bi_offset bi_row_id map fst ends]. rewrite P0, <- !app_assoc. reflexivity.
Qed.

Lemma feed_touch d f bl : forall w wr bi w1 wr1 bi1 r,
  feed sink_write (w, wr, bi) bl = ((w1, wr1, bi1), r) -> opened d f w wr -> extends f w w1 /\ opened d f w1 wr1.
Proof.
  induction bl as [|[r b] bl IH]; intros w wr bi w1 wr1 bi1 res F H.
  - cbn in F. injection F as <- <- <- _. split; [apply extends_refl|exact H].
  - cbn [feed] in F. unfold sink_write at 1 in F. destruct (writer_write_block w wr b) as [[w0 wr0] [[]|]] eqn:W;
      destruct (write_touch _ _ _ _ _ _ _ _ H W) as (E0 & O0 & _).
    + destruct (IH _ _ _ _ _ _ _ F O0) as (E1 & O1). split; [eapply extends_trans; eassumption|exact O1].
    + injection F as <- <- <- _. split; assumption.
Qed.

Lemma feed_succeeds d f bl : forall w wr bi, opened d f w wr -> all_succeed w -> tf_err (wr_file wr) = false ->
  exists w1 wr1 bi1, feed sink_write (w, wr, bi) bl = ((w1, wr1, bi1), Ok tt) /\ all_succeed w1 /\ tf_err (wr_file wr1) = false.
Proof.
  induction bl as [|[r b] bl IH]; intros w wr bi H A X; [exists w, wr, bi; cbn; auto|].
  cbn [feed]. unfold sink_write at 1. destruct (writer_write_block w wr b) as [[w0 wr0] r0] eqn:W.
  destruct (write_touch _ _ _ _ _ _ _ _ H W) as (E0 & O0 & _ & HA & HX). rewrite (HA A X).
  apply IH; [exact O0|eapply all_succeed_extends; eassumption|exact (HX X)].
Qed.

(** * What the metadata says *)

Definition layout_of (ci : column_info) : column_layout :=
  mkclayout (Some (mkbil (Some (mkrange 0 0)))) None (Some (match ci_encoding ci with Snappy => ESnappy | _ => EPlain end)).

Definition describes {A} (f : column_info -> A) (closed : list column_info) (m : list (list N * A)) : Prop :=
  NoDup (map fst m) /\ forall name, assoc name m = option_map f (last_named name closed).

Lemma hm_insert_keys {A} k (v : A) m : forall x, In x (map fst (hm_insert k v m)) <-> x = k \/ In x (map fst m).
Proof.
  induction m as [|[k' v'] m IH]; intros x; cbn [hm_insert]; [cbn; intuition|].
  destruct (list_eq_dec N.eq_dec k k') as [->|NE]; cbn [map fst In]; [intuition|]. rewrite IH. intuition.
Qed.

Lemma hm_insert_nodup {A} k (v : A) m : NoDup (map fst m) -> NoDup (map fst (hm_insert k v m)).
Proof.
  induction m as [|[k' v'] m IH]; intros ND; cbn [hm_insert]; [repeat constructor; auto|].
  cbn [map fst] in ND. inversion ND as [|? ? N1 N2]; subst.
  destruct (list_eq_dec N.eq_dec k k') as [->|NE]; cbn [map fst]; [constructor; assumption|].
  constructor; [|auto]. rewrite hm_insert_keys. intros [->|X]; [congruence|contradiction].
Qed.

Lemma hm_insert_assoc {A} k (v : A) m name : assoc name (hm_insert k v m) = if list_eq_dec N.eq_dec name k then Some v else assoc name m.
Proof.
  induction m as [|[k' v'] m IH]; cbn [hm_insert assoc]; [reflexivity|].
  destruct (list_eq_dec N.eq_dec k k') as [->|NE]; cbn [assoc].
  - destruct (list_eq_dec N.eq_dec name k'); reflexivity.
  - rewrite IH. destruct (list_eq_dec N.eq_dec name k') as [->|]; [|reflexivity].
    destruct (list_eq_dec N.eq_dec k' k) as [->|]; [congruence|reflexivity].
Qed.

Lemma last_named_snoc name cols ci : last_named name (cols ++ [ci]) = if list_eq_dec N.eq_dec name (ci_name ci) then Some ci else last_named name cols.
Proof. unfold last_named. rewrite rev_app_distr. cbn. destruct (list_eq_dec N.eq_dec name (ci_name ci)); reflexivity. Qed.

Lemma describes_insert {A} (f : column_info -> A) closed m ci : describes f closed m -> describes f (closed ++ [ci]) (hm_insert (ci_name ci) (f ci) m).
Proof.
  intros [ND D]. split; [apply hm_insert_nodup, ND|]. intros name. rewrite hm_insert_assoc, last_named_snoc, D.
  destruct (list_eq_dec N.eq_dec name (ci_name ci)); reflexivity.
Qed.

Lemma assoc_in {A} k (v : A) m : NoDup (map fst m) -> (assoc k m = Some v <-> In (k, v) m).
Proof.
  induction m as [|[k' v'] m IH]; intros ND; cbn [assoc map fst In] in *; [intuition discriminate|].
  inversion ND as [|? ? N1 N2]; subst. destruct (list_eq_dec N.eq_dec k k') as [->|NE].
  - split; [intros [= ->]; auto|]. intros [[= ->]|X]; [reflexivity|]. exfalso. apply N1. apply in_map_iff. exists (k', v). auto.
  - rewrite (IH N2). split; [auto|]. intros [[= -> _]|X]; [congruence|exact X].
Qed.

Lemma assoc_perm {A} (m m' : list (list N * A)) k : NoDup (map fst m) -> Permutation m m' -> assoc k m' = assoc k m.
Proof.
  intros ND P. assert (ND' : NoDup (map fst m')) by (eapply Permutation_NoDup; [apply Permutation_map, P|exact ND]).
  destruct (assoc k m) as [v|] eqn:E.
  - apply assoc_in; [exact ND'|]. apply (Permutation_in _ P). apply assoc_in; assumption.
  - destruct (assoc k m') as [v|] eqn:E'; [|reflexivity]. apply assoc_in in E'; [|exact ND'].
    apply (Permutation_in _ (Permutation_sym P)) in E'. apply assoc_in in E'; [congruence|exact ND].
Qed.

Lemma describes_perm {A} (f : column_info -> A) closed m m' : describes f closed m -> Permutation m m' -> describes f closed m'.
Proof.
  intros [ND D] P. split; [eapply Permutation_NoDup; [apply Permutation_map, P|exact ND]|].
  intros name. rewrite (assoc_perm m m' name ND P). apply D.
Qed.

Definition meta_ok (info : segment_info) (closed : list column_info) (m : metadata) : Prop :=
  exists cols lays,
    m = mkmeta (Some (mksmeta (si_segment_id info) (si_database_name info) (si_table_name info) (si_shard_id info) 0 0
                              (si_num_rows info) cols)) lays
    /\ describes column_meta_of closed cols /\ describes layout_of closed lays.

(** ** What it is made of, exactly *)

Definition meta_insert (ci : column_info) (m : metadata) : metadata :=
  mkmeta (match md_segment_meta m with
          | None => None
          | Some s => Some (mksmeta (sm_segment_id s) (sm_database_name s) (sm_table_name s) (sm_shard_id s)
                              (sm_compressed_size s) (sm_uncompressed_size s) (sm_num_rows s)
                              (hm_insert (ci_name ci) (column_meta_of ci) (sm_columns_meta s)))
          end)
         (hm_insert (ci_name ci) (layout_of ci) (md_columns_layout m)).

Definition meta_ordered (it : iteration) (m : metadata) : metadata :=
  mkmeta (match md_segment_meta m with
          | None => None
          | Some s => Some (mksmeta (sm_segment_id s) (sm_database_name s) (sm_table_name s) (sm_shard_id s)
                              (sm_compressed_size s) (sm_uncompressed_size s) (sm_num_rows s)
                              (it_columns it (sm_columns_meta s)))
          end)
         (it_layouts it (md_columns_layout m)).

Definition meta_new (info : segment_info) : metadata :=
  mkmeta (Some (mksmeta (si_segment_id info) (si_database_name info) (si_table_name info) (si_shard_id info) 0 0
                        (si_num_rows info) [])) [].

(** The metadata and the bytes of the index file after closing columns ([inl])
    and the segment ([inr]). *)
Definition mark_step (st : metadata * list N) (mk : column_info + iteration) : metadata * list N :=
  match mk with
  | inl ci => (meta_insert ci (fst st), snd st)
  | inr it => (fst st, snd st ++ encode_metadata (meta_ordered it (fst st)) ++ le_bytes 8 (N.of_nat (length (snd st))))
  end.

Lemma marks_insert cis : forall m idx, fold_left mark_step (map inl cis) (m, idx) = (fold_left (fun m ci => meta_insert ci m) cis m, idx).
Proof. induction cis as [|ci cis IH]; intros m idx; cbn [map fold_left]; [reflexivity|]. apply IH. Qed.

(** * Running columns *)

Section Run.
Context (d : directory) (p : profile) (fd fi : path) (info : segment_info).
Context (NE : fd <> fi).

(** [data] and [index] were handed to the two writers, columns [closed] were
    closed. *)
Definition seg_inv (w : world) (sg : segment) (data index : list N) (closed : list column_info) : Prop :=
  sound d fd w (sg_data sg) data /\ sound d fi w (sg_index sg) index
  /\ wr_pos (sg_data sg) = N.of_nat (length data) /\ wr_pos (sg_index sg) = N.of_nat (length index)
  /\ meta_ok info closed (sg_meta sg).

Definition enc_ok (cw : column_writer) : Prop :=
  layout_of_enc (cw_encoder cw) = match ci_encoding (cw_info cw) with Snappy => ESnappy | _ => EPlain end.

Lemma column_step_ok w sg cw o w1 sg1 cw1 data index closed :
  seg_inv w sg data index closed -> enc_ok cw -> column_step p w sg cw o = Ret (w1, sg1, cw1, Ok tt) ->
  exists bl,
    seg_inv w1 sg1 (data ++ bytes_in bl) index (closed ++ match o with CClose => [cw_info cw] | CWrite _ => [] end)
    /\ enc_ok cw1 /\ cw_info cw1 = cw_info cw /\ extends fd w w1
    /\ sg_block_index sg1 = mkbi (bi_offset (sg_block_index sg) ++ ends (N.of_nat (length data)) bl) (bi_row_id (sg_block_index sg) ++ map fst bl)
    /\ sg_meta sg1 = match o with CClose => meta_insert (cw_info cw) (sg_meta sg) | CWrite _ => sg_meta sg end
    /\ forall rest acc, encoder_run p (cw_encoder cw) (o :: rest) acc = encoder_run p (cw_encoder cw1) rest (acc ++ bl).
Proof.
  intros (SD & SI & PD & PI & M) EO H. destruct o as [b|]; cbn [column_step] in H.
  - unfold column_write in H. destruct (bin_encode sink_write p (cw_encoder cw) b _) as [[[e [[w0 dt] bi]] res]|k|] eqn:E; cbn [bind] in H; try discriminate.
    injection H as <- <- <- ->. destruct (bin_encode_feed _ _ _ _ _ _ _ _ E) as (L & bl & F & G).
    destruct (feed_sink d fd _ _ _ _ _ _ _ _ F SD) as (X & SD1 & PD1 & B1).
    exists bl. cbn [sg_data sg_index sg_block_index sg_meta cw_info cw_encoder]. split.
    { split; [exact SD1|]. split; [eapply sound_other; eassumption|]. cbn [sg_data sg_index sg_block_index sg_meta]. split; [rewrite PD1, PD, app_length; lia|]. split; [exact PI|]. rewrite app_nil_r. exact M. }
    split; [unfold enc_ok in *; cbn [cw_info cw_encoder]; congruence|]. split; [reflexivity|]. split; [exact X|]. split; [rewrite <- PD; exact B1|]. split; [reflexivity|].
    intros rest acc. cbn [encoder_run]. rewrite (G eq_refl). reflexivity.
  - unfold column_close in H. destruct (bin_flush sink_write p (cw_encoder cw) _) as [[[e [[w0 dt] bi]] res]|k|] eqn:E; cbn [bind] in H; try discriminate.
    destruct (bin_flush_feed _ _ _ _ _ _ _ E) as (L & bl & r0 & F & -> & G). destruct r0 as [[]|]; [|discriminate].
    destruct M as (cols & lays & EM & DC & DL). rewrite EM in H. cbn [md_segment_meta md_columns_layout] in H. injection H as <- <- <-.
    destruct (feed_sink d fd _ _ _ _ _ _ _ _ F SD) as (X & SD1 & PD1 & B1).
    exists bl. cbn [sg_data sg_index sg_block_index sg_meta cw_info cw_encoder]. split.
    { split; [exact SD1|]. split; [eapply sound_other; eassumption|]. cbn [sg_data sg_index sg_block_index sg_meta]. split; [rewrite PD1, PD, app_length; lia|]. split; [exact PI|].
      eexists _, _. split; [reflexivity|]. split; [apply describes_insert, DC|].
      unfold bi_flush. unfold enc_ok in EO. rewrite EO. apply (describes_insert layout_of closed lays (cw_info cw) DL). }
    split; [unfold enc_ok in *; cbn [cw_info cw_encoder]; congruence|]. split; [reflexivity|]. split; [exact X|]. split; [rewrite <- PD; exact B1|].
    split; [rewrite EM; unfold bi_flush; unfold enc_ok in EO; rewrite EO; reflexivity|].
    intros rest acc. cbn [encoder_run]. rewrite (G eq_refl). reflexivity.
Qed.

Definition closes (ci : column_info) (ops : list col_op) : list column_info :=
  flat_map (fun c => match c with CClose => [ci] | CWrite _ => [] end) ops.

Lemma column_run_ok ops : forall w sg cw w1 sg1 rs data index closed,
  seg_inv w sg data index closed -> enc_ok cw -> column_run p w sg cw ops = Ret (w1, sg1, rs) -> all_ok rs ->
  exists bl,
    seg_inv w1 sg1 (data ++ bytes_in bl) index (closed ++ closes (cw_info cw) ops) /\ extends fd w w1
    /\ sg_block_index sg1 = mkbi (bi_offset (sg_block_index sg) ++ ends (N.of_nat (length data)) bl) (bi_row_id (sg_block_index sg) ++ map fst bl)
    /\ sg_meta sg1 = fold_left (fun m ci => meta_insert ci m) (closes (cw_info cw) ops) (sg_meta sg)
    /\ forall acc, encoder_run p (cw_encoder cw) ops acc = Ret (acc ++ bl).
Proof.
  induction ops as [|o ops IH]; intros w sg cw w1 sg1 rs data index closed I EO H A; cbn [column_run] in H.
  - injection H as <- <- <-. exists []. cbn [closes flat_map bytes_in map concat ends]. unfold bytes_in. cbn [map concat]. rewrite !app_nil_r. split; [exact I|]. split; [apply extends_refl|].
    split; [destruct (sg_block_index sg); reflexivity|]. split; [reflexivity|]. intros acc. cbn. rewrite app_nil_r. reflexivity.
  - destruct (column_step p w sg cw o) as [[[[w0 sg0] cw0] res]|k|] eqn:E; cbn [bind] in H; try discriminate.
    destruct (column_run p w0 sg0 cw0 ops) as [[[w2 sg2] more]|k|] eqn:R; cbn [bind] in H; try discriminate. injection H as <- <- <-.
    apply Forall_cons_iff in A. destruct A as [-> A].
    destruct (column_step_ok _ _ _ _ _ _ _ _ _ _ I EO E) as (bl & I0 & EO0 & CI & X0 & B0 & M0 & G0).
    destruct (IH _ _ _ _ _ _ _ _ _ I0 EO0 R A) as (bl2 & I1 & X1 & B1 & M1 & G1).
    exists (bl ++ bl2). split.
    { rewrite bytes_in_app. cbn [closes flat_map]. fold (closes (cw_info cw) ops). rewrite !app_assoc. rewrite CI in I1. exact I1. }
    split; [eapply extends_trans; eassumption|]. split.
    { rewrite B1, B0. cbn [bi_offset bi_row_id]. rewrite ends_app, map_app, <- !app_assoc, app_length, Nat2N.inj_add. reflexivity. }
    split; [rewrite M1, M0, CI; destruct o; reflexivity|].
    intros acc. rewrite G0, G1, <- app_assoc. reflexivity.
Qed.

Lemma segment_close_ok w sg it w1 sg1 data index closed :
  seg_inv w sg data index closed -> (forall l, Permutation l (it_columns it l)) /\ (forall l, Permutation l (it_layouts it l)) ->
  segment_close w sg it = (w1, sg1, Ok tt) ->
  exists m, meta_ok info closed m /\ m = meta_ordered it (sg_meta sg) /\ sg_meta sg1 = sg_meta sg
    /\ seg_inv w1 sg1 data (index ++ encode_metadata m ++ le_bytes 8 (N.of_nat (length index))) closed
    /\ sg_block_index sg1 = sg_block_index sg
    /\ directory_after d (wd_log w1) fi = Some (index ++ encode_metadata m ++ le_bytes 8 (N.of_nat (length index)))
    /\ directory_after d (wd_log w1) fd = Some data
    /\ tf_busy (wr_file (sg_data sg1)) = None /\ tf_busy (wr_file (sg_index sg1)) = None
    /\ tf_err (wr_file (sg_data sg1)) = false /\ tf_err (wr_file (sg_index sg1)) = false.
Proof.
  intros (SD & SI & PD & PI & (cols & lays & EM & DC & DL)) (OC & OL) H. unfold segment_close in H. rewrite EM in H. cbn [md_segment_meta md_columns_layout sm_segment_id sm_database_name sm_table_name sm_shard_id sm_compressed_size sm_uncompressed_size sm_num_rows sm_columns_meta] in H.
  set (m := mkmeta (Some (mksmeta (si_segment_id info) (si_database_name info) (si_table_name info) (si_shard_id info) 0 0 (si_num_rows info) (it_columns it cols))) (it_layouts it lays)) in *.
  cbn zeta in H. assert (NE' : fi <> fd) by congruence.
  destruct (writer_write_block w (sg_index sg) (encode_metadata m)) as [[wa ia] [[]|]] eqn:Wa; [|discriminate].
  destruct (write_touch _ _ _ _ _ _ _ _ (sound_opened _ _ _ _ _ SI) Wa) as (Xa & _ & Pa & _).
  pose proof (write_sound _ _ _ _ _ _ _ _ SI Wa) as Sa.
  destruct (writer_write_block wa ia _) as [[wb ib] [[]|]] eqn:Wb; [|discriminate].
  destruct (write_touch _ _ _ _ _ _ _ _ (sound_opened _ _ _ _ _ Sa) Wb) as (Xb & _ & Pb & _).
  pose proof (write_sound _ _ _ _ _ _ _ _ Sa Wb) as Sb.
  destruct (writer_flush wb ib) as [[wc ic] [[]|]] eqn:Wc; [|discriminate].
  destruct (flush_touch _ _ _ _ _ _ _ (sound_opened _ _ _ _ _ Sb) Wc) as (Xc & _ & Pc & _ & Bc & Ec).
  pose proof (flush_keeps_sound _ _ _ _ _ _ _ Sb Wc) as Sc. pose proof (flush_sound _ _ _ _ _ _ _ Sb Wc) as Fc.
  assert (SDc : sound d fd wc (sg_data sg) data).
  { eapply sound_other; [exact Xc|exact NE'|]. eapply sound_other; [exact Xb|exact NE'|]. eapply sound_other; [exact Xa|exact NE'|]. exact SD. }
  destruct (writer_flush wc (sg_data sg)) as [[wd dt] r] eqn:Wd. injection H as <- <- ->.
  destruct (flush_touch _ _ _ _ _ _ _ (sound_opened _ _ _ _ _ SDc) Wd) as (Xd & _ & Pd & _ & Bd & Ed).
  pose proof (flush_keeps_sound _ _ _ _ _ _ _ SDc Wd) as Sd. pose proof (flush_sound _ _ _ _ _ _ _ SDc Wd) as Fd.
  unfold writer_pos in *. rewrite PI in *. rewrite <- app_assoc in Sc, Fc.
  exists m. cbn [sg_data sg_index sg_block_index sg_meta]. split.
  { exists (it_columns it cols), (it_layouts it lays). split; [reflexivity|]. split; eapply describes_perm; eauto. }
  split; [rewrite EM; reflexivity|]. split; [congruence|]. split.
  { split; [exact Sd|]. cbn [sg_data sg_index sg_block_index sg_meta]. split; [eapply sound_other; [exact Xd|exact NE|exact Sc]|].
    split; [congruence|]. split; [rewrite Pc, Pb, Pa; rewrite !app_length, le_length; lia|].
    exists cols, lays. auto. }
  split; [reflexivity|]. split; [rewrite (extends_dir d fd fi _ _ Xd NE); exact Fc|]. split; [exact Fd|].
  split; [apply Bd; reflexivity|]. split; [apply Bc; reflexivity|]. split; assumption.
Qed.

(** ** Whole histories *)

(** After the operations [ops], all of which succeeded. *)
Definition reached (ops : list seg_op) (w : world) (sg : segment) : Prop :=
  exists blocks index,
    segment_blocks p ops = Ret blocks
    /\ fold_left mark_step (outline ops) (meta_new info, index_file_signature) = (sg_meta sg, index_file_signature ++ index)
    /\ seg_inv w sg (data_file_signature ++ bytes_in blocks) (index_file_signature ++ index) (closed_columns ops).

Lemma segment_blocks_app a b : segment_blocks p (a ++ b) =
  let* x := segment_blocks p a in let* y := segment_blocks p b in Ret (x ++ y).
Proof.
  induction a as [|o a IH]; cbn [app segment_blocks].
  - cbn [bind]. destruct (segment_blocks p b); reflexivity.
  - destruct o as [ci cops|it]; [|exact IH]. destruct (column_blocks p ci cops) as [bl|k|]; cbn [bind]; [|reflexivity..].
    rewrite IH. destruct (segment_blocks p a) as [x|k|]; cbn [bind]; [|reflexivity..]. destruct (segment_blocks p b) as [y|k|]; cbn [bind]; [|reflexivity..].
    rewrite app_assoc. reflexivity.
Qed.

Lemma open_inv sg ci sg1 cw : new_binary_column_writer sg ci = (sg1, Ok cw) ->
  sg1 = mksegment (sg_data sg) (sg_index sg) bi_new (sg_meta sg) /\ cw_info cw = ci /\ enc_ok cw
  /\ new_binary_encoder (ci_encoding ci) 128 (ci_nullable ci) = Ok (cw_encoder cw).
Proof.
  unfold new_binary_column_writer. change segment_block_size with 128%N. intros H. destruct (new_binary_encoder (ci_encoding ci) 128 (ci_nullable ci)) as [e|] eqn:E; [|discriminate].
  injection H as <- <-. split; [reflexivity|]. split; [reflexivity|]. split; [|reflexivity].
  unfold enc_ok. cbn [cw_encoder cw_info]. destruct (ci_encoding ci); inversion E; reflexivity.
Qed.

Lemma seg_step_ok done o w sg w1 sg1 rs : reached done w sg -> orders_ok [o] -> seg_step p w sg o = Ret (w1, sg1, rs) -> all_ok rs ->
  reached (done ++ [o]) w1 sg1.
Proof.
  intros (blocks & index & B & MK & I) O H A. unfold reached. rewrite segment_blocks_app, B. cbn [bind]. unfold outline. rewrite flat_map_app, fold_left_app. fold (outline done). rewrite MK.
  unfold closed_columns. rewrite flat_map_app. fold (closed_columns done). destruct o as [ci cops|it]; cbn [seg_step] in H.
  - destruct (new_binary_column_writer sg ci) as [sg0 [cw|]] eqn:E.
    2:{ injection H as <- <- <-. apply Forall_cons_iff in A. destruct A as [A _]. discriminate. }
    destruct (open_inv _ _ _ _ E) as (-> & CI & EO & NEW).
    destruct (column_run p w _ cw cops) as [[[w2 sg2] more]|k|] eqn:R; cbn [bind] in H; try discriminate. injection H as <- <- <-.
    apply Forall_cons_iff in A. destruct A as [_ A].
    assert (I0 : seg_inv w (mksegment (sg_data sg) (sg_index sg) bi_new (sg_meta sg)) (data_file_signature ++ bytes_in blocks) (index_file_signature ++ index) (closed_columns done)) by exact I.
    destruct (column_run_ok _ _ _ _ _ _ _ _ _ _ I0 EO R A) as (bl & I1 & _ & _ & ME & G).
    cbn [segment_blocks]. unfold column_blocks. rewrite NEW, G. cbn [bind app]. exists (blocks ++ bl), index. rewrite app_nil_r. split; [reflexivity|].
    split; [cbn [flat_map marks_in]; rewrite app_nil_r, marks_insert, ME, <- CI; reflexivity|].
    rewrite bytes_in_app, app_assoc. cbn [flat_map closed_in]. rewrite app_nil_r, <- CI. exact I1.
  - destruct (segment_close w sg it) as [[w2 sg2] r] eqn:C. injection H as <- <- <-.
    apply Forall_cons_iff in A. destruct A as [-> _]. apply Forall_cons_iff in O. destruct O as [O _].
    destruct (segment_close_ok _ _ _ _ _ _ _ _ I O C) as (m & _ & -> & ME & I1 & _). set (m := meta_ordered it (sg_meta sg)) in *.
    cbn [segment_blocks bind]. exists blocks, (index ++ encode_metadata m ++ le_bytes 8 (N.of_nat (length (index_file_signature ++ index)))).
    rewrite app_nil_r. split; [reflexivity|]. split; [cbn [flat_map marks_in app fold_left mark_step fst snd]; rewrite ME, (app_assoc index_file_signature); reflexivity|]. cbn [flat_map closed_in]. rewrite app_nil_r. rewrite app_assoc. exact I1.
Qed.

Lemma seg_run_ok ops : forall done w sg w1 sg1 rs, reached done w sg -> orders_ok ops -> seg_run p w sg ops = Ret (w1, sg1, rs) -> all_ok rs ->
  reached (done ++ ops) w1 sg1.
Proof.
  induction ops as [|o ops IH]; intros done w sg w1 sg1 rs RE O H A; cbn [seg_run] in H.
  - injection H as <- <- <-. rewrite app_nil_r. exact RE.
  - destruct (seg_step p w sg o) as [[[w0 sg0] r0]|k|] eqn:E; cbn [bind] in H; try discriminate.
    destruct (seg_run p w0 sg0 ops) as [[[w2 sg2] more]|k|] eqn:R; cbn [bind] in H; try discriminate. injection H as <- <- <-.
    apply Forall_app in A. destruct A as [A1 A2]. apply Forall_cons_iff in O. destruct O as [O1 O2].
    replace (done ++ o :: ops) with ((done ++ [o]) ++ ops) by (rewrite <- app_assoc; reflexivity).
    eapply IH; [eapply seg_step_ok; [exact RE|constructor; [exact O1|constructor]|exact E|exact A1]|exact O2|exact R|exact A2].
Qed.

Lemma seg_run_app a b w sg : seg_run p w sg (a ++ b) =
  let* r := seg_run p w sg a in let '(w1, sg1, ra) := r in
  let* r := seg_run p w1 sg1 b in let '(w2, sg2, rb) := r in Ret (w2, sg2, ra ++ rb).
Proof.
  revert w sg. induction a as [|o a IH]; intros w sg; cbn [app seg_run].
  - cbn [bind]. destruct (seg_run p w sg b) as [[[w2 sg2] rb]|k|]; reflexivity.
  - destruct (seg_step p w sg o) as [[[w0 sg0] r0]|k|]; cbn [bind]; [|reflexivity..]. rewrite IH.
    destruct (seg_run p w0 sg0 a) as [[[w1 sg1] ra]|k|]; cbn [bind]; [|reflexivity..].
    destruct (seg_run p w1 sg1 b) as [[[w2 sg2] rb]|k|]; cbn [bind]; [|reflexivity..]. rewrite app_assoc. reflexivity.
Qed.

Lemma seg_run_split a b w sg w2 sg2 rs : seg_run p w sg (a ++ b) = Ret (w2, sg2, rs) -> all_ok rs ->
  exists w1 sg1 ra rb, seg_run p w sg a = Ret (w1, sg1, ra) /\ all_ok ra /\ seg_run p w1 sg1 b = Ret (w2, sg2, rb) /\ all_ok rb.
Proof.
  intros H A. rewrite seg_run_app in H. destruct (seg_run p w sg a) as [[[w1 sg1] ra]|k|]; cbn [bind] in H; try discriminate.
  destruct (seg_run p w1 sg1 b) as [[[w3 sg3] rb]|k|] eqn:R; cbn [bind] in H; try discriminate. injection H as <- <- <-.
  apply Forall_app in A. destruct A. exists w1, sg1, ra, rb. auto.
Qed.
End Run.

(** A new segment. *)
Lemma segment_new_ok d p w base info w1 sg : 0 < wd_max w -> is_id (si_segment_id info) -> segment_new w base info = (w1, Ok sg) ->
  reached d p (data_path base (si_segment_id info)) (index_path base (si_segment_id info)) info [] w1 sg.
Proof.
  intros M ID H. destruct (C49_distinct base _ _ ID ID) as (_ & _ & NE). set (fd := data_path base (si_segment_id info)) in *. set (fi := index_path base (si_segment_id info)) in *.
  unfold segment_new in H. fold fd fi in H.
  destruct (writer_new w fi) as [wa [ix|]] eqn:Ni; [|discriminate]. pose proof (new_sound d _ _ _ _ M Ni) as Si.
  destruct (writer_new_inv d _ _ _ _ Ni) as (Ma & _ & _ & _ & Pi & _). rewrite <- Ma in M.
  destruct (writer_new wa fd) as [wb [dt|]] eqn:Nd; [|discriminate]. pose proof (new_sound d _ _ _ _ M Nd) as Sd.
  destruct (writer_new_inv d _ _ _ _ Nd) as (Mb & _ & _ & _ & Pd & _).
  assert (Sib : sound d fi wb ix []).
  { destruct Si as (M0 & P0 & c & H0 & X0). split; [lia|]. split; [exact P0|]. exists c. split; [|exact X0]. unfold holds in *.
    unfold writer_new, tk_create in Nd. destruct (next_fate wa) as [fate w0] eqn:NF. destruct (next_fate_inv _ _ _ NF) as (HL & _). destruct fate; inversion Nd; subst.
    cbn [effect wd_log]. rewrite HL, directory_after_app, directory_after_other; [exact H0|]. repeat constructor. exact NE. }
  unfold write_headers in H. cbn [sg_index sg_data sg_block_index sg_meta] in H.
  destruct (writer_write_block wb ix index_file_signature) as [[wc ic] [[]|]] eqn:Wc; [|discriminate].
  destruct (write_touch _ _ _ _ _ _ _ _ (sound_opened _ _ _ _ _ Sib) Wc) as (Xc & _ & Pc & _).
  pose proof (write_sound _ _ _ _ _ _ _ _ Sib Wc) as Sc. cbn [app] in Sc.
  assert (Sdc : sound d fd wc dt []) by (eapply sound_other; [exact Xc|congruence|exact Sd]).
  destruct (writer_write_block wc dt data_file_signature) as [[we de] [[]|]] eqn:We; [|discriminate].
  destruct (write_touch _ _ _ _ _ _ _ _ (sound_opened _ _ _ _ _ Sdc) We) as (Xe & _ & Pe & _).
  pose proof (write_sound _ _ _ _ _ _ _ _ Sdc We) as Se. injection H as <- <-.
  exists [], []. split; [reflexivity|]. split; [reflexivity|]. unfold bytes_in. cbn [map concat]. rewrite !app_nil_r. split; [exact Se|]. cbn [sg_data sg_index sg_block_index sg_meta].
  split; [eapply sound_other; [exact Xe|exact NE|exact Sc]|]. split; [rewrite Pe, Pd; reflexivity|]. split; [rewrite Pc, Pi; reflexivity|].
  exists [], []. split; [reflexivity|]. split; (split; [constructor|reflexivity]).
Qed.
