(** C74: calls dropped before they are finished. *)
From Verif Require Import Base Buffers Sink PrimEnc BinEnc Io SpecIo IoProofs PropsIo Metadata Proto SpecProto ProtoProofs ReadBlock BlockProofs Names PropsNames Segment SpecSegment
  SegmentProofs SegmentRunProofs PropsSegment PropsSegmentEx PropsIndexErr Cancel.
From Coq Require Import Permutation.
Open Scope nat_scope.

(** * The limit on chunks stays the same *)

Lemma wait_max w f w1 f1 r : tk_wait w f = (w1, f1, r) -> wd_max w1 = wd_max w.
Proof.
  unfold tk_wait, tk_background. destruct (tf_busy f) as [c|]; [|intros [= <- _ _]; reflexivity].
  destruct (next_fate w) as [[q|] w2] eqn:NF; destruct (next_fate_inv _ _ _ NF) as (_ & HM & _); cbn; intros [= <- _ _]; exact HM.
Qed.

Lemma tk_write_max w f src w1 f1 r : tk_write w f src = (w1, f1, r) -> wd_max w1 = wd_max w.
Proof.
  unfold tk_write. destruct (tf_err f); [intros [= <- _ _]; reflexivity|]. destruct (tk_wait w f) as [[w2 f2] [u|]] eqn:W; intros [= <- _ _]; eapply wait_max; exact W.
Qed.

Lemma write_all_max fuel : forall w f src w1 f1 r, tk_write_all fuel w f src = (w1, f1, r) -> wd_max w1 = wd_max w.
Proof.
  induction fuel as [|fuel IH]; intros w f [|b src] w1 f1 r H; cbn [tk_write_all] in H; try (injection H as <- _ _; reflexivity).
  destruct (tk_write w f (b :: src)) as [[w0 f0] [k|]] eqn:W; pose proof (tk_write_max _ _ _ _ _ _ W) as M0.
  - destruct (k =? 0); [injection H as <- _ _; exact M0|]. rewrite (IH _ _ _ _ _ _ H). exact M0.
  - injection H as <- _ _. exact M0.
Qed.

Lemma within_max n : forall w f src w1 f1 x, tk_write_all_within n w f src = (w1, f1, x) -> wd_max w1 = wd_max w.
Proof.
  induction n as [|n IH]; intros w f [|b src] w1 f1 x H; cbn [tk_write_all_within] in H; try (injection H as <- _ _; reflexivity).
  destruct (tk_write w f (b :: src)) as [[w0 f0] [k|]] eqn:W; pose proof (tk_write_max _ _ _ _ _ _ W) as M0.
  - destruct (k =? 0); [injection H as <- _ _; exact M0|]. rewrite (IH _ _ _ _ _ _ H). exact M0.
  - injection H as <- _ _. exact M0.
Qed.

Lemma writer_blocks_max blocks : forall w wr w1 wr1 rs, writer_run w wr (map WBlock blocks) = (w1, wr1, rs) -> wd_max w1 = wd_max w.
Proof.
  induction blocks as [|b blocks IH]; intros w wr w1 wr1 rs H; cbn [map writer_run writer_step] in H; [injection H as <- _ _; reflexivity|].
  unfold writer_write_block in H. destruct (tk_write_all _ w _ b) as [[wa fa] ra] eqn:A. pose proof (write_all_max _ _ _ _ _ _ _ A) as Ma.
  destruct (writer_run wa _ (map WBlock blocks)) as [[wb wrb] rb] eqn:R. injection H as <- _ _. rewrite (IH _ _ _ _ _ R). exact Ma.
Qed.

(** * A call that is not dropped *)

Lemma within_all n : forall fuel w f src w1 f1 n1 r, length src <= fuel -> 0 < wd_max w ->
  tk_write_all_within n w f src = (w1, f1, Some (n1, r)) -> tk_write_all fuel w f src = (w1, f1, r).
Proof.
  induction n as [|n IH]; intros fuel w f src w1 f1 n1 r L M H; destruct src as [|b src]; cbn [tk_write_all_within] in H.
  - injection H as <- <- _ <-. destruct fuel; reflexivity.
  - discriminate H.
  - injection H as <- <- _ <-. destruct fuel; reflexivity.
  - destruct fuel as [|fuel]; [cbn in L; lia|]. cbn [tk_write_all]. destruct (tk_write w f (b :: src)) as [[w0 f0] [k|]] eqn:W; [|injection H as <- <- _ <-; reflexivity].
    destruct (k =? 0) eqn:K; [injection H as <- <- _ <-; reflexivity|]. apply Nat.eqb_neq in K.
    pose proof (tk_write_max _ _ _ _ _ _ W) as M0.
    eapply IH; [rewrite skipn_length; cbn [length] in *; lia|rewrite M0; exact M|exact H].
Qed.

Lemma writer_within_all n w wr b w1 wr1 n1 r : 0 < wd_max w -> writer_write_within n w wr b = (w1, wr1, Some (n1, r)) ->
  writer_write_block w wr b = (w1, wr1, r).
Proof.
  unfold writer_write_within, writer_write_block. intros M H. destruct (tk_write_all_within n w (wr_file wr) b) as [[wa fa] xa] eqn:A. injection H as <- <- ->.
  rewrite (within_all _ (length b) _ _ _ _ _ _ _ (Nat.le_refl _) M A). reflexivity.
Qed.

(** A call that is not dropped does what it does otherwise. *)
Theorem C74_not_dropped : forall n w sg it w1 sg1 r, 0 < wd_max w ->
  segment_close_within n w sg it = (w1, sg1, Some r) -> segment_close w sg it = (w1, sg1, r).
Proof.
  intros n w sg it w1 sg1 r M H. unfold segment_close_within, segment_close in *. cbv zeta in *.
  set (bytes := encode_metadata _) in *. clearbody bytes.
  destruct (writer_write_within n w (sg_index sg) bytes) as [[wa ia] [[na ra]|]] eqn:A; [|discriminate H].
  rewrite (writer_within_all _ _ _ _ _ _ _ _ M A). destruct ra as [u|]; [|injection H as <- <- <-; reflexivity].
  assert (Ma : wd_max wa = wd_max w).
  { clear -A. unfold writer_write_within in A. destruct (tk_write_all_within n w _ bytes) as [[x y] z] eqn:B. injection A as <- _ _. eapply within_max, B. }
  destruct (writer_write_within na wa ia _) as [[wb ib] [[nb rb]|]] eqn:B; [|discriminate H].
  rewrite (writer_within_all _ _ _ _ _ _ _ _ ltac:(rewrite Ma; exact M) B). destruct rb as [u'|]; [|injection H as <- <- <-; reflexivity].
  unfold writer_flush_within in H. destruct nb as [|nb]; [discriminate H|].
  destruct (writer_flush wb ib) as [[wc ic] [u2|]]; [|injection H as <- <- <-; reflexivity].
  destruct nb as [|nb]; [discriminate H|]. destruct (writer_flush wc (sg_data sg)) as [[wd dt] rd]. injection H as <- <- <-. reflexivity.
Qed.
Print Assumptions C74_not_dropped.

(** * The writer *)

Lemma within_chunks n : forall d f w fl src done w1 f1,
  0 < wd_max w -> tf_path fl = f -> (exists c, holds d w f c /\ (tf_err fl = true \/ c ++ pending fl = done)) ->
  tk_write_all_within n w fl src = (w1, f1, None) ->
  n * wd_max w < length src /\ extends f w w1 /\ tf_path f1 = f
  /\ exists c, holds d w1 f c /\ (tf_err f1 = true \/ c ++ pending f1 = done ++ firstn (n * wd_max w) src).
Proof.
  induction n as [|n IH]; intros d f w fl src done w1 f1 M P (c & HC & X) H; destruct src as [|b src]; cbn [tk_write_all_within] in H; try discriminate H.
  - injection H as <- <-. cbn [Nat.mul firstn]. split; [cbn; lia|]. split; [apply extends_refl|]. split; [exact P|]. exists c. rewrite app_nil_r. auto.
  - set (s := b :: src) in *. destruct (tk_write w fl s) as [[w0 f0] [k|]] eqn:W; [|discriminate H]. destruct (k =? 0) eqn:K; [discriminate H|].
    rewrite <- P in HC. destruct (tk_write_spec _ _ _ _ _ _ _ _ W HC) as (P0 & E0 & NE & KE & _ & _ & _ & HO & _). rewrite P in *.
    assert (X0 : tf_err fl = false) by (apply NE; discriminate). destruct X as [X|X]; [congruence|].
    destruct (HO k eq_refl) as (H0 & B0 & L0). pose proof (KE X0) as XF. assert (M0 : wd_max w0 = wd_max w) by (destruct E0 as (E & _); exact E).
    rewrite firstn_length in L0.
    destruct (IH d f w0 f0 (skipn k s) (done ++ firstn k s) w1 f1) as (L1 & M1 & P1 & c1 & H1 & X1); [lia|congruence| |exact H|].
    { exists (c ++ pending fl). split; [exact H0|]. right. unfold pending at 2. rewrite B0, X. f_equal. rewrite L0.
      destruct (Nat.min_spec (wd_max w) (length s)) as [[_ Q]|[Q1 Q]]; rewrite Q; [reflexivity|]. rewrite firstn_all. apply firstn_all2. exact Q1. }
    rewrite M0 in *. rewrite skipn_length in L1.
    assert (KM : k = wd_max w) by (clear -L0 L1 M; lia).
    clear L0. subst k. split; [cbn [Nat.mul]; lia|]. split; [eapply extends_trans; eassumption|]. split; [exact P1|]. exists c1. split; [exact H1|]. destruct X1 as [X1|X1]; [left; exact X1|right].
    rewrite X1, <- app_assoc. f_equal. cbn [Nat.mul]. rewrite <- (firstn_skipn (wd_max w) s) at 3. rewrite firstn_app. f_equal.
    + symmetry. apply firstn_all2. rewrite firstn_length. lia.
    + f_equal. rewrite firstn_length. lia.
Qed.

Lemma within_sound d f n w wr b done w1 wr1 : sound d f w wr done -> writer_write_within n w wr b = (w1, wr1, None) ->
  n * wd_max w < length b /\ extends f w w1 /\ sound d f w1 wr1 (done ++ firstn (n * wd_max w) b)
  /\ wr_pos wr1 = (wr_pos wr + N.of_nat (length b))%N.
Proof.
  intros (M & P & C) H. unfold writer_write_within in H. destruct (tk_write_all_within n w (wr_file wr) b) as [[wa fa] xa] eqn:A. injection H as <- <- ->.
  destruct (within_chunks _ _ _ _ _ _ _ _ _ M P C A) as (L & X & P1 & C1). split; [exact L|]. split; [exact X|]. split; [|reflexivity].
  split; [destruct X as (-> & _); exact M|]. split; [exact P1|exact C1].
Qed.

Lemma all_reports ops : forall rs, length rs = length ops -> Forall (eq (Ok tt)) rs -> reports_ok ops rs.
Proof.
  induction ops as [|o ops IH]; intros [|r rs] L A; try discriminate L; [constructor|]. apply Forall_cons_iff in A. destruct A as [<- A]. constructor; [auto|]. apply IH; [now injection L|exact A].
Qed.

(** Writing some blocks, then one that is dropped after [n] operations, and more
    blocks, all flushed: of the dropped one, the first [n] chunks are in the
    file, and not all of it; but the position counts all of it, so that every
    later block is before its offsets. *)
Theorem C74_writer_exact_partial : forall d w f w1 wr before w2 wr2 rs n block w3 wr3 after w4 wr4 rs4,
  0 < wd_max w -> writer_new w f = (w1, Ok wr) ->
  writer_run w1 wr (map WBlock before) = (w2, wr2, rs) -> Forall (eq (Ok tt)) rs ->
  writer_write_within n w2 wr2 block = (w3, wr3, None) ->
  writer_run w3 wr3 (map WBlock after ++ [WFlush]) = (w4, wr4, rs4) -> Forall (eq (Ok tt)) rs4 ->
  n * wd_max w < length block
  /\ directory_after d (wd_log w4) f = Some (concat before ++ firstn (n * wd_max w) block ++ concat after)
  /\ writer_pos wr4 = N.of_nat (length (concat before ++ block ++ concat after)).
Proof.
  intros d w f w1 wr before w2 wr2 rs n block w3 wr3 after w4 wr4 rs4 M N R A D R4 A4.
  pose proof (new_sound d _ _ _ _ M N) as S1. destruct (writer_new_inv d _ _ _ _ N) as (M1 & _ & _ & _ & P1 & _).
  assert (BO : forall l, blocks_of (map WBlock l) = concat l) by (clear; induction l as [|b l IH]; cbn; [reflexivity|rewrite IH; reflexivity]).
  pose proof (writer_run_sound _ _ _ _ _ _ _ _ _ S1 R (all_reports _ _ (writer_run_length _ _ _ _ _ _ R) A)) as S2. cbn [app] in S2. rewrite BO in S2.
  pose proof (writer_blocks_max _ _ _ _ _ _ R) as M2. pose proof (writer_pos_run _ _ _ _ _ _ R) as P2. rewrite BO, P1 in P2.
  destruct (within_sound _ _ _ _ _ _ _ _ _ S2 D) as (L & _ & S3 & P3). rewrite M2, M1 in L, S3. split; [exact L|].
  pose proof (writer_pos_run _ _ _ _ _ _ R4) as P4. rewrite blocks_of_app, BO in P4. cbn [blocks_of] in P4. rewrite app_nil_r in P4.
  apply writer_run_split in R4; [|apply all_reports; [eapply writer_run_length; exact R4|exact A4]]. destruct R4 as (wa & wra & ra & rb & Ra & Ka & Rb & Kb & _).
  pose proof (writer_run_sound _ _ _ _ _ _ _ _ _ S3 Ra Ka) as Sa. rewrite BO in Sa. cbn [writer_run writer_step] in Rb.
  destruct (writer_flush wa wra) as [[wb wrb] r] eqn:F. injection Rb as <- <- <-. inversion Kb as [|? ? ? ? [Q|Q] _]; [discriminate Q|]. subst r.
  rewrite (flush_sound _ _ _ _ _ _ _ Sa F), <- app_assoc. split; [reflexivity|]. unfold writer_pos. rewrite P4, P3, P2, !app_length. lia.
Qed.
Print Assumptions C74_writer_exact_partial.

(** Three blocks, the second of which is dropped after one chunk of 50 bytes;
    the third is written at 51, and said to be from 81 to 83. *)
Example C74_writer_witness :
  match writer_new (mkworld [] [] 50) [1%N] with
  | (w1, Ok wr) =>
      match writer_run w1 wr (map WBlock [[1%N]]) with
      | (w2, wr2, rs) =>
          match writer_write_within 1 w2 wr2 (repeat 2%N 80) with
          | (w3, wr3, None) =>
              match writer_run w3 wr3 (map WBlock [[3; 4]%N] ++ [WFlush]) with
              | (w4, wr4, rs4) =>
                  rs = [Ok tt] /\ rs4 = [Ok tt; Ok tt] /\ writer_pos wr4 = 83%N
                  /\ directory_after (fun _ => None) (wd_log w4) [1%N] = Some ([1%N] ++ repeat 2%N 50 ++ [3; 4]%N)
              end
          | _ => False
          end
      end
  | _ => False
  end.
Proof. vm_compute. repeat split. Qed.

(** * A column *)

Lemma within_write_pos n w wr b w1 wr1 x : writer_write_within n w wr b = (w1, wr1, x) -> wr_pos wr1 = (wr_pos wr + N.of_nat (length b))%N.
Proof. unfold writer_write_within. destruct (tk_write_all_within _ _ _ _) as [[a f] q]. intros [= <- <- <-]. reflexivity. Qed.

Lemma within_feed bl : forall n w wr bi w1 wr1 bi1 n1, SegmentProofs.feed sink_write_within ((w, wr, bi), Some n) bl = (((w1, wr1, bi1), n1), Ok tt) -> 0 < wd_max w ->
  (exists k, n1 = Some k) /\ wd_max w1 = wd_max w /\ SegmentProofs.feed sink_write (w, wr, bi) bl = ((w1, wr1, bi1), Ok tt).
Proof.
  induction bl as [|[r b] bl IH]; intros n w wr bi w1 wr1 bi1 n1 F M; cbn [SegmentProofs.feed] in F |- *.
  - injection F as <- <- <- <-. split; [eexists; reflexivity|]. split; reflexivity.
  - unfold sink_write_within at 1 in F. unfold sink_write at 1. destruct (writer_write_within n w wr b) as [[w0 wr0] [[n0 [[]|]]|]] eqn:W; [|discriminate F..].
    rewrite (writer_within_all _ _ _ _ _ _ _ _ M W).
    assert (M0 : wd_max w0 = wd_max w).
    { clear -W. unfold writer_write_within in W. destruct (tk_write_all_within _ _ _ _) as [[x y] z] eqn:E. injection W as <- _ _. eapply within_max, E. }
    destruct (IH _ _ _ _ _ _ _ _ F ltac:(lia)) as (X & Y & Z). split; [exact X|]. split; [congruence|exact Z].
Qed.

(** A write to a column that is not dropped does what it does otherwise. *)
Theorem C74_column_not_dropped : forall n p w sg cw buf w1 sg1 cw1 r, 0 < wd_max w ->
  column_write_within n p w sg cw buf = Ret (w1, sg1, cw1, Some r) -> column_write p w sg cw buf = Ret (w1, sg1, cw1, r).
Proof.
  intros n p w sg cw buf w1 sg1 cw1 r M H. unfold column_write_within in H.
  destruct (bin_encode sink_write_within p (cw_encoder cw) buf _) as [[[e [[[wa dt] bi] rest]] res]|k|] eqn:E; cbn [bind] in H; try discriminate.
  destruct (bin_encode_alike _ _ _ _ _ _ _ _ E) as (done & last & (([[wb db] bb] & nb) & F & L) & G).
  destruct (within_feed _ _ _ _ _ _ _ _ _ F M) as ((k & ->) & MB & F'). injection H as HW HS HC HR.
  assert (HH : hands sink_write (w, sg_data sg, sg_block_index sg) done last (wa, dt, bi) res).
  { exists (wb, db, bb). split; [exact F'|]. destruct last as [[rr b]|].
    - destruct L as [L ->]. split; [|reflexivity]. unfold sink_write_within in L. unfold sink_write. destruct (writer_write_within k wb db b) as [[wc dc] [[nc [u|]]|]] eqn:W; [discriminate L| |].
      + rewrite (writer_within_all _ _ _ _ _ _ _ _ ltac:(rewrite MB; exact M) W). injection L as <- <- <- _. reflexivity.
      + injection L as _ _ _ <-. discriminate HR.
    - destruct L as [L ->]. injection L as <- <- <- _. split; reflexivity. }
  unfold column_write. rewrite (G _ _ _ _ HH). cbn [bind]. destruct rest as [x|]; [|discriminate HR]. injection HR as <-. subst. reflexivity.
Qed.
Print Assumptions C74_column_not_dropped.

(** A write to a column that is dropped leaves the encoder as if the sink had
    accepted some blocks and rejected the next one.  The accepted ones are in the
    index; the other one is not, but the position counts it. *)
Theorem C74_column_exact_partial : forall n p w sg cw buf w1 sg1 cw1, 0 < wd_max w ->
  column_write_within n p w sg cw buf = Ret (w1, sg1, cw1, None) ->
  exists accepted rejected,
    bin_encode accepts p (cw_encoder cw) buf (mklog (length accepted) [] []) = Ret (cw_encoder cw1, mklog 0 accepted [rejected], Err)
    /\ index_grows sg sg1 accepted [rejected].
Proof.
  intros n p w sg cw buf w1 sg1 cw1 M H. unfold column_write_within in H.
  destruct (bin_encode sink_write_within p (cw_encoder cw) buf _) as [[[e [[[wa dt] bi] rest]] res]|k|] eqn:E; cbn [bind] in H; try discriminate.
  destruct (bin_encode_alike _ _ _ _ _ _ _ _ E) as (done & last & (([[wb db] bb] & nb) & F & L) & G).
  destruct (within_feed _ _ _ _ _ _ _ _ _ F M) as ((k & ->) & MB & F'). destruct (sink_feed _ _ _ _ _ _ _ F') as (A & B & C).
  injection H as <- <- <- HR. destruct last as [[rr b]|]; destruct L as [L ->].
  2:{ injection L as _ _ _ ->. discriminate HR. }
  exists done, (rr, b). unfold sink_write_within in L. destruct (writer_write_within k wb db b) as [[wc dc] [[nc [u|]]|]] eqn:W; [discriminate L|injection L as _ _ _ <-; discriminate HR|].
  injection L as <- <- <- _. split.
  - cbn [cw_encoder]. apply G. pose proof (accepts_feed done 0 [] []) as AF. rewrite Nat.add_0_r in AF. cbn [app] in AF. eexists. split; [exact AF|]. split; reflexivity.
  - split; [exact A|]. split; [exact B|]. cbn [sg_data]. rewrite (within_write_pos _ _ _ _ _ _ _ W), C, map_app, concat_app, app_length. cbn [map snd concat]. rewrite app_nil_r. lia.
Qed.
Print Assumptions C74_column_exact_partial.

(** The first block of 138 bytes is dropped after two of its three chunks of 50
    bytes; the index has no entry, the position counts it. *)
Example C74_column_witness :
  match segment_new ex_world ex_base ex_info with
  | (w1, Ok sg) =>
      match new_binary_column_writer sg ex_a with
      | (sg, Ok cw) =>
          match column_write_within 2 Debug w1 sg cw ex_buf with
          | Ret (w2, sg2, cw2, None) => 0 < wd_max w1 /\ wr_pos (sg_data sg) = 13%N /\ wr_pos (sg_data sg2) = 151%N /\ bi_offset (sg_block_index sg2) = []
          | _ => False
          end
      | _ => False
      end
  | _ => False
  end.
Proof. vm_compute. repeat split. lia. Qed.

(** * Closing *)

(** A close that succeeds, wherever the index file is thought to end. *)
Lemma close_anywhere d fd fi info w sg it w1 sg1 data index closed : fd <> fi ->
  sound d fd w (sg_data sg) data -> sound d fi w (sg_index sg) index -> meta_ok info closed (sg_meta sg) ->
  (forall l, Permutation l (it_columns it l)) /\ (forall l, Permutation l (it_layouts it l)) ->
  segment_close w sg it = (w1, sg1, Ok tt) ->
  exists m, meta_ok info closed m
    /\ directory_after d (wd_log w1) fi = Some (index ++ encode_metadata m ++ le_bytes 8 (wr_pos (sg_index sg)))
    /\ directory_after d (wd_log w1) fd = Some data
    /\ wr_pos (sg_index sg1) = (wr_pos (sg_index sg) + N.of_nat (length (encode_metadata m) + 8))%N.
Proof.
  intros NE SD SI (cols & lays & EM & DC & DL) (OC & OL) H. unfold segment_close in H. rewrite EM in H. cbn [md_segment_meta md_columns_layout sm_segment_id sm_database_name sm_table_name sm_shard_id sm_compressed_size sm_uncompressed_size sm_num_rows sm_columns_meta] in H.
  set (m := mkmeta (Some (mksmeta (si_segment_id info) (si_database_name info) (si_table_name info) (si_shard_id info) 0 0 (si_num_rows info) (it_columns it cols))) (it_layouts it lays)) in *.
  cbn zeta in H. assert (NE' : fi <> fd) by congruence.
  destruct (writer_write_block w (sg_index sg) (encode_metadata m)) as [[wa ia] [[]|]] eqn:Wa; [|discriminate].
  destruct (write_touch _ _ _ _ _ _ _ _ (sound_opened _ _ _ _ _ SI) Wa) as (Xa & _ & Pa & _).
  pose proof (write_sound _ _ _ _ _ _ _ _ SI Wa) as Sa.
  destruct (writer_write_block wa ia _) as [[wb ib] [[]|]] eqn:Wb; [|discriminate].
  destruct (write_touch _ _ _ _ _ _ _ _ (sound_opened _ _ _ _ _ Sa) Wb) as (Xb & _ & Pb & _).
  pose proof (write_sound _ _ _ _ _ _ _ _ Sa Wb) as Sb.
  destruct (writer_flush wb ib) as [[wc ic] [[]|]] eqn:Wc; [|discriminate].
  destruct (flush_touch _ _ _ _ _ _ _ (sound_opened _ _ _ _ _ Sb) Wc) as (Xc & _ & Pc & _).
  pose proof (flush_sound _ _ _ _ _ _ _ Sb Wc) as Fc.
  assert (SDc : sound d fd wc (sg_data sg) data).
  { eapply sound_other; [exact Xc|exact NE'|]. eapply sound_other; [exact Xb|exact NE'|]. eapply sound_other; [exact Xa|exact NE'|]. exact SD. }
  destruct (writer_flush wc (sg_data sg)) as [[wd dt] r] eqn:Wd. injection H as <- <- ->.
  destruct (flush_touch _ _ _ _ _ _ _ (sound_opened _ _ _ _ _ SDc) Wd) as (Xd & _).
  pose proof (flush_sound _ _ _ _ _ _ _ SDc Wd) as Fd. rewrite <- app_assoc in Fc.
  exists m. split; [exists (it_columns it cols), (it_layouts it lays); split; [reflexivity|]; split; eapply describes_perm; eauto|].
  split; [rewrite (extends_dir d fd fi _ _ Xd NE); exact Fc|]. split; [exact Fd|]. cbn [sg_index]. rewrite Pc, Pb, Pa, le_length. lia.
Qed.

Lemma within_left n : forall w f src w1 f1 n1 r, tk_write_all_within n w f src = (w1, f1, Some (n1, Ok r)) -> n <= n1 + length src.
Proof.
  induction n as [|n IH]; intros w f [|b src] w1 f1 n1 r H; cbn [tk_write_all_within] in H; try discriminate H; try (injection H as _ _ <- _; lia).
  destruct (tk_write w f (b :: src)) as [[w0 f0] [k|]] eqn:W; [|discriminate H]. destruct (k =? 0) eqn:K; [discriminate H|]. apply Nat.eqb_neq in K.
  pose proof (IH _ _ _ _ _ _ _ H) as L. rewrite skipn_length in L. cbn [length] in *. lia.
Qed.

(** A close that is dropped: a part of the metadata, or all of it and a part of
    the footer, reached the index file; the position counts the last thing
    begun in full. *)
Lemma close_dropped d fd fi info n w sg it w1 sg1 data index closed : fd <> fi ->
  sound d fd w (sg_data sg) data -> sound d fi w (sg_index sg) index -> meta_ok info closed (sg_meta sg) ->
  (forall l, Permutation l (it_columns it l)) /\ (forall l, Permutation l (it_layouts it l)) ->
  segment_close_within n w sg it = (w1, sg1, None) ->
  exists m arrived lost,
    meta_ok info closed m
    /\ (arrived ++ lost = encode_metadata m \/ arrived ++ lost = encode_metadata m ++ le_bytes 8 (wr_pos (sg_index sg)))
    /\ sound d fd w1 (sg_data sg1) data /\ sound d fi w1 (sg_index sg1) (index ++ arrived) /\ sg_meta sg1 = sg_meta sg
    /\ wr_pos (sg_index sg1) = (wr_pos (sg_index sg) + N.of_nat (length (arrived ++ lost)))%N
    /\ (n * wd_max w < length (encode_metadata m) -> arrived = firstn (n * wd_max w) (encode_metadata m) /\ arrived ++ lost = encode_metadata m)
    /\ (length (encode_metadata m) + 8 <= n -> lost = []).
Proof.
  intros NE SD SI (cols & lays & EM & DC & DL) (OC & OL) H. unfold segment_close_within in H. rewrite EM in H. cbn [md_segment_meta md_columns_layout sm_segment_id sm_database_name sm_table_name sm_shard_id sm_compressed_size sm_uncompressed_size sm_num_rows sm_columns_meta] in H.
  set (m := mkmeta (Some (mksmeta (si_segment_id info) (si_database_name info) (si_table_name info) (si_shard_id info) 0 0 (si_num_rows info) (it_columns it cols))) (it_layouts it lays)) in *.
  assert (MO : meta_ok info closed m) by (exists (it_columns it cols), (it_layouts it lays); split; [reflexivity|]; split; eapply describes_perm; eauto).
  clearbody m. cbn zeta in H. assert (NE' : fi <> fd) by congruence. assert (M : 0 < wd_max w) by apply SI.
  exists m. destruct (writer_write_within n w (sg_index sg) (encode_metadata m)) as [[wa ia] xa] eqn:Wa.
  destruct xa as [[na [[]|]]|]; [|discriminate H|].
  2:{ injection H as <- <-. destruct (within_sound _ _ _ _ _ _ _ _ _ SI Wa) as (L & X & S1 & P1).
      exists (firstn (n * wd_max w) (encode_metadata m)), (skipn (n * wd_max w) (encode_metadata m)). rewrite firstn_skipn. cbn [sg_data sg_index sg_meta].
      split; [exact MO|]. split; [left; reflexivity|]. split; [eapply sound_other; eassumption|]. split; [exact S1|]. split; [symmetry; exact EM|]. split; [exact P1|].
      split; [split; reflexivity|]. clear -L M. intros Q. nia. }
  assert (La : n <= na + length (encode_metadata m) /\ ~ n * wd_max w < length (encode_metadata m)).
  { split.
    - clear -Wa. unfold writer_write_within in Wa. destruct (tk_write_all_within _ _ _ _) as [[x y] z] eqn:E. injection Wa as _ _ ->. eapply within_left, E.
    - intros L. clear -Wa L M SI. unfold writer_write_within in Wa. destruct (tk_write_all_within _ _ _ _) as [[x y] z] eqn:E. injection Wa as _ _ ->.
      revert E L. generalize (wr_file (sg_index sg)) as f. generalize (encode_metadata m) as src. clear SI. revert w M x y na.
      induction n as [|n IH]; intros w M x y na [|b src] f E L; cbn [tk_write_all_within] in E; try discriminate E; try (cbn in L; lia).
      destruct (tk_write w f (b :: src)) as [[w0 f0] [k|]] eqn:W; [|discriminate E]. destruct (k =? 0) eqn:K; [discriminate E|].
      pose proof (tk_write_max _ _ _ _ _ _ W) as M0.
      assert (KL : k <= wd_max w). { clear -W. unfold tk_write in W. destruct (tf_err f); [discriminate W|]. destruct (tk_wait w f) as [[w2 f2] [u|]] eqn:TW; [|discriminate W].
        injection W as _ _ <-. rewrite <- (wait_max _ _ _ _ _ TW). apply firstn_le_length. }
      eapply (IH w0); [lia|exact E|]. rewrite skipn_length, M0. cbn [Nat.mul] in L. lia. }
  pose proof (writer_within_all _ _ _ _ _ _ _ _ M Wa) as Wa'.
  destruct (write_touch _ _ _ _ _ _ _ _ (sound_opened _ _ _ _ _ SI) Wa') as (Xa & _ & Pa & _). pose proof (write_sound _ _ _ _ _ _ _ _ SI Wa') as Sa.
  assert (Ma : 0 < wd_max wa) by apply Sa. destruct La as [La Na].
  unfold writer_pos in H.
  destruct (writer_write_within na wa ia _) as [[wb ib] xb] eqn:Wb. destruct xb as [[nb [[]|]]|]; [|discriminate H|].
  2:{ injection H as <- <-. destruct (within_sound _ _ _ _ _ _ _ _ _ Sa Wb) as (L & X & S1 & P1). set (foot := le_bytes 8 (wr_pos (sg_index sg))) in *.
      assert (FL : length foot = 8) by apply le_length.
      exists (encode_metadata m ++ firstn (na * wd_max wa) foot), (skipn (na * wd_max wa) foot). rewrite <- app_assoc, firstn_skipn. cbn [sg_data sg_index sg_meta].
      split; [exact MO|]. split; [right; reflexivity|]. split; [eapply sound_other; [exact X|exact NE'|]; eapply sound_other; eassumption|]. split; [rewrite app_assoc; exact S1|]. split; [symmetry; exact EM|].
      split; [rewrite P1, Pa, app_length; lia|]. split; [intros Q; elim (Na Q)|]. clear -L La Ma FL. intros Q. nia. }
  pose proof (writer_within_all _ _ _ _ _ _ _ _ Ma Wb) as Wb'.
  destruct (write_touch _ _ _ _ _ _ _ _ (sound_opened _ _ _ _ _ Sa) Wb') as (Xb & _ & Pb & _). pose proof (write_sound _ _ _ _ _ _ _ _ Sa Wb') as Sb.
  exists (encode_metadata m ++ le_bytes 8 (wr_pos (sg_index sg))), []. rewrite !app_nil_r. rewrite (app_assoc index).
  split; [exact MO|]. split; [right; reflexivity|].
  assert (SDb : sound d fd wb (sg_data sg) data) by (eapply sound_other; [exact Xb|exact NE'|]; eapply sound_other; eassumption).
  assert (PB : wr_pos ib = (wr_pos (sg_index sg) + N.of_nat (length (encode_metadata m ++ le_bytes 8 (wr_pos (sg_index sg)))))%N) by (rewrite Pb, Pa, app_length; lia).
  unfold writer_flush_within in H. destruct nb as [|nb].
  { injection H as <- <-. cbn [sg_data sg_index sg_meta]. split; [exact SDb|]. split; [exact Sb|]. split; [symmetry; exact EM|]. split; [exact PB|]. split; [intros Q; elim (Na Q)|reflexivity]. }
  destruct (writer_flush wb ib) as [[wc ic] [[]|]] eqn:Wc; [|discriminate H]. destruct (flush_touch _ _ _ _ _ _ _ (sound_opened _ _ _ _ _ Sb) Wc) as (Xc & _ & Pc & _).
  pose proof (flush_keeps_sound _ _ _ _ _ _ _ Sb Wc) as Sc.
  destruct nb as [|nb]; [|destruct (writer_flush wc (sg_data sg)) as [[wd dt] rd]; discriminate H].
  injection H as <- <-. cbn [sg_data sg_index sg_meta]. split; [eapply sound_other; [exact Xc|exact NE'|exact SDb]|]. split; [exact Sc|]. split; [symmetry; exact EM|]. split; [congruence|]. split; [intros Q; elim (Na Q)|reflexivity].
Qed.

(** Metadata of the segment with these closed columns. *)
Definition describes_segment (info : segment_info) (closed : list column_info) (m : metadata) : Prop :=
  exists s, md_segment_meta m = Some s
    /\ sm_segment_id s = si_segment_id info /\ sm_database_name s = si_database_name info /\ sm_table_name s = si_table_name info
    /\ sm_shard_id s = si_shard_id info /\ sm_num_rows s = si_num_rows info
    /\ entries column_entry closed (sm_columns_meta s) /\ entries layout_entry closed (md_columns_layout m).

Lemma meta_describes info closed m : meta_ok info closed m -> describes_segment info closed m.
Proof.
  intros (cols & lays & -> & DC & DL). eexists. split; [reflexivity|]. cbn [sm_segment_id sm_database_name sm_table_name sm_shard_id sm_num_rows sm_columns_meta md_columns_layout].
  split; [reflexivity|]. split; [reflexivity|]. split; [reflexivity|]. split; [reflexivity|]. split; [reflexivity|].
  split; eapply describes_entries; try eassumption; intros ci; [apply column_meta_entry|reflexivity].
Qed.

(** What a reader finds when the position is [lost] bytes too far. *)
Lemma read_off_by before meta lost : firstn 12 before = index_file_signature -> 12 <= length before ->
  (N.of_nat (length before + length meta + 8 + lost) < 18446744073709551616)%N ->
  read_index_file (before ++ meta ++ le_bytes 8 (N.of_nat (length before + lost)))
  = if lost <=? length meta then read_metadata (skipn lost meta) else None.
Proof.
  intros F L SZ. set (foot := le_bytes 8 _). assert (FL : length foot = 8) by apply le_length.
  assert (FV : le_value foot = N.of_nat (length before + lost)) by (apply le_value_bytes; clear -SZ; cbn; lia). clearbody foot. unfold read_index_file. cbn zeta.
  assert (NL : length (before ++ meta ++ foot) = length before + length meta + 8) by (rewrite !app_length; lia). rewrite NL.
  replace (skipn (length before + length meta + 8 - 8) (before ++ meta ++ foot)) with foot.
  2:{ replace (length before + length meta + 8 - 8) with (length (before ++ meta)) by (rewrite app_length; lia). rewrite app_assoc, skipn_app, skipn_all, Nat.sub_diag. reflexivity. }
  rewrite FV, Nat2N.id.
  rewrite (proj2 (Nat.leb_le 20 _)) by lia. rewrite (proj2 (Nat.leb_le 12 _)) by lia. cbn [andb].
  destruct (Nat.leb_spec lost (length meta)) as [Q|Q].
  - rewrite (proj2 (Nat.leb_le _ _)) by lia.
    replace (firstn 12 (before ++ meta ++ foot)) with index_file_signature by (rewrite firstn_app, (proj2 (Nat.sub_0_le 12 _) L), app_nil_r; congruence).
    destruct (list_eq_dec N.eq_dec _ _) as [_|C]; [|elim C; reflexivity]. f_equal.
    rewrite IoReadProofs.skipn_plus. rewrite skipn_app, skipn_all, Nat.sub_diag. cbn [app skipn].
    rewrite skipn_app, (proj2 (Nat.sub_0_le lost _) Q). cbn [skipn]. rewrite firstn_app.
    replace (length before + length meta + 8 - 8 - (length before + lost)) with (length (skipn lost meta)) by (rewrite skipn_length; lia).
    rewrite firstn_all, Nat.sub_diag. cbn [firstn]. apply app_nil_r.
  - rewrite (proj2 (Nat.leb_gt _ _)) by lia. reflexivity.
Qed.

(** After any successful history, a close that is dropped after [n] operations,
    and one that succeeds.  What the first one began to write last was [arrived
    ++ lost]; [lost] never reached the file, but was counted, so that the new
    position is that much too far: exactly if nothing was lost, a reader is sure
    to find the metadata. *)
Theorem C74_close_exact_partial : forall d p w base info w1 sg ops w2 sg2 rs n it w3 sg3 it' w4 sg4,
  0 < wd_max w -> is_id (si_segment_id info) -> segment_new w base info = (w1, Ok sg) ->
  orders_ok (ops ++ [SClose it; SClose it']) -> seg_run p w1 sg ops = Ret (w2, sg2, rs) -> all_ok rs ->
  segment_close_within n w2 sg2 it = (w3, sg3, None) -> segment_close w3 sg3 it' = (w4, sg4, Ok tt) ->
  exists before first arrived lost second file,
    directory_after d (wd_log w4) (index_path base (si_segment_id info)) = Some file
    /\ file = before ++ arrived ++ second ++ le_bytes 8 (N.of_nat (length (before ++ arrived ++ lost)))
    /\ firstn 12 before = [77; 69; 69; 82; 75; 65; 84; 95; 73; 68; 88; 49]%N
    /\ (arrived ++ lost = first \/ arrived ++ lost = first ++ le_bytes 8 (N.of_nat (length before)))
    /\ (n * wd_max w2 < length first -> arrived = firstn (n * wd_max w2) first /\ arrived ++ lost = first)
    /\ (length first + 8 <= n -> lost = [])
    /\ (exists m, read_metadata first = Some m /\ describes_segment info (closed_columns ops) m)
    /\ (exists m, read_metadata second = Some m /\ describes_segment info (closed_columns ops) m)
    /\ ((N.of_nat (length file + length lost) < 18446744073709551616)%N ->
        read_index_file file = if length lost <=? length second then read_metadata (skipn (length lost) second) else None)
    /\ writer_pos (sg_index sg4) = N.of_nat (length file + length lost).
Proof.
  intros d p w base info w1 sg ops w2 sg2 rs n it w3 sg3 it' w4 sg4 M ID N O H A D C. destruct (C49_distinct base _ _ ID ID) as (_ & _ & NE).
  pose proof (segment_new_ok d p _ _ _ _ _ M ID N) as R0. apply Forall_app in O. destruct O as [O O2].
  apply Forall_cons_iff in O2. destruct O2 as [OI O2]. apply Forall_cons_iff in O2. destruct O2 as [OI' _].
  destruct (seg_run_ok d p _ _ info NE _ _ _ _ _ _ _ R0 O H A) as (blocks & index & _ & _ & (SD & SI & PD & PI & MO)). cbn [app] in *.
  set (before := index_file_signature ++ index) in *.
  destruct (close_dropped d _ _ info _ _ _ _ _ _ _ _ _ NE SD SI MO OI D) as (m & arrived & lost & MF & CL & SD3 & SI3 & ME & P3 & CN & CA).
  rewrite <- ME in MO. destruct (close_anywhere d _ _ info _ _ _ _ _ _ _ _ NE SD3 SI3 MO OI' C) as (m' & MF' & DI & _ & PF).
  rewrite P3, PI in DI. rewrite PI in CL.
  replace (N.of_nat (length before) + N.of_nat (length (arrived ++ lost)))%N with (N.of_nat (length (before ++ arrived ++ lost))) in DI by (rewrite app_length; lia).
  rewrite <- app_assoc in DI.
  assert (BL : 12 <= length before) by (unfold before; rewrite app_length; cbn; lia).
  eexists before, (encode_metadata m), arrived, lost, (encode_metadata m'), _. split; [exact DI|]. split; [reflexivity|]. split; [reflexivity|]. split; [exact CL|]. split; [exact CN|]. split; [exact CA|].
  split; [exists m; split; [eapply meta_ok_readable, MF|apply meta_describes, MF]|]. split; [exists m'; split; [eapply meta_ok_readable, MF'|apply meta_describes, MF']|].
  split; [|unfold writer_pos; rewrite PF, P3, PI, !app_length, le_length; lia].
  intros SZ. rewrite (app_assoc before) in SZ |- *. rewrite (app_assoc before arrived lost) in SZ |- *. rewrite app_length with (l := before ++ arrived) (l' := lost).
  apply read_off_by.
  - reflexivity.
  - rewrite app_length. lia.
  - clear -SZ. rewrite app_length with (l := before ++ arrived), app_length with (l := encode_metadata m'), le_length in SZ. lia.
Qed.
Print Assumptions C74_close_exact_partial.


(** If the index file is as long as the writer thinks, then nothing was lost,
    and the metadata can be read. *)
Theorem C74_nothing_lost : forall d p w base info w1 sg ops w2 sg2 rs n it w3 sg3 it' w4 sg4 file,
  0 < wd_max w -> is_id (si_segment_id info) -> segment_new w base info = (w1, Ok sg) ->
  orders_ok (ops ++ [SClose it; SClose it']) -> seg_run p w1 sg ops = Ret (w2, sg2, rs) -> all_ok rs ->
  segment_close_within n w2 sg2 it = (w3, sg3, None) -> segment_close w3 sg3 it' = (w4, sg4, Ok tt) ->
  directory_after d (wd_log w4) (index_path base (si_segment_id info)) = Some file ->
  (N.of_nat (length file) < 18446744073709551616)%N -> writer_pos (sg_index sg4) = N.of_nat (length file) ->
  exists m, read_index_file file = Some m /\ describes_segment info (closed_columns ops) m.
Proof.
  intros d p w base info w1 sg ops w2 sg2 rs n it w3 sg3 it' w4 sg4 file M ID N O H A D C DF SZ PF.
  destruct (C74_close_exact_partial d p _ _ _ _ _ _ _ _ _ _ _ _ _ _ _ _ M ID N O H A D C) as (before & first & arrived & lost & second & file' & DF' & _ & _ & _ & _ & _ & _ & (m & RM & DM) & RD & PF').
  rewrite DF in DF'. apply some_inv in DF'. subst file'. rewrite PF in PF'. assert (L : length lost = 0) by lia. rewrite L in RD. cbn [Nat.leb skipn] in RD.
  exists m. rewrite RD by lia. split; [exact RM|exact DM].
Qed.
Print Assumptions C74_nothing_lost.

(** The property itself: a close that was dropped can be repeated. *)
Definition C74_statement : Prop := forall d p w base info w1 sg ops w2 sg2 rs n it w3 sg3 it' w4 sg4 file,
  0 < wd_max w -> is_id (si_segment_id info) -> segment_new w base info = (w1, Ok sg) ->
  orders_ok (ops ++ [SClose it; SClose it']) -> seg_run p w1 sg ops = Ret (w2, sg2, rs) -> all_ok rs ->
  segment_close_within n w2 sg2 it = (w3, sg3, None) -> segment_close w3 sg3 it' = (w4, sg4, Ok tt) ->
  directory_after d (wd_log w4) (index_path base (si_segment_id info)) = Some file ->
  (N.of_nat (length file) < 18446744073709551616)%N ->
  exists m, read_index_file file = Some m /\ describes_segment info (closed_columns ops) m.

(** A column is written and closed; the segment is closed twice, the first call
    being dropped after [n] operations. *)
Definition ex_dropped (n : nat) : option (world * segment * (world * segment) * list (result unit)) :=
  match run_from Debug ex_world ex_base ex_info [SColumn ex_a [CWrite ex_buf; CClose]] with
  | Some (w2, sg2, rs) =>
      match segment_close_within n w2 sg2 ex_it with
      | (w3, sg3, None) => let '(w4, sg4, r) := segment_close w3 sg3 ex_it in Some (w3, sg3, (w4, sg4), rs ++ [r])
      | _ => None
      end
  | None => None
  end.

Definition ex_dropped_file (n : nat) : option (list N) :=
  match ex_dropped n with
  | Some (_, _, (w4, _), _) => directory_after (fun _ => None) (wd_log w4) (index_path ex_base (si_segment_id ex_info))
  | None => None
  end.

Definition is_busy (wr : writer) : bool := match tf_busy (wr_file wr) with Some _ => true | None => false end.

(** What is read from the index file: [None] if the example is not as described,
    [Some None] if it cannot be read. *)
Definition ex_dropped_read (n : nat) : option (bool * list (result unit) * nat * option (option (list N))) :=
  match ex_dropped n, ex_dropped_file n with
  | Some (_, sg3, _, rs), Some file =>
      Some (is_busy (sg_index sg3), rs, length file, option_map (fun m => option_map sm_segment_id (md_segment_meta m)) (read_index_file file))
  | _, _ => None
  end.

(** All calls report success.  Dropped at the first wait, for the signature being
    written, empty metadata is read; after the first of the two chunks of the
    metadata, or before the footer, the file cannot be read; in the flush of the
    index file, the identifier is read. *)
Example C74_witness :
  map ex_dropped_read [0; 1; 2; 3]
  = let ok := repeat (Ok tt) 4 in
    [Some (true, ok, 76, Some None); Some (true, ok, 126, None); Some (true, ok, 132, None); Some (true, ok, 140, Some (Some (si_segment_id ex_info)))].
Proof. vm_compute. reflexivity. Qed.

Theorem C74_refuted : ~ C74_statement.
Proof.
  intros H. destruct (segment_new ex_world ex_base ex_info) as [w1 [sg|]] eqn:N; [|vm_compute in N; discriminate N].
  set (ops := [SColumn ex_a [CWrite ex_buf; CClose]]) in *.
  destruct (seg_run Debug w1 sg ops) as [[[w2 sg2] rs]|k|] eqn:R.
  - assert (RF : run_from Debug ex_world ex_base ex_info ops = Some (w2, sg2, rs)) by (unfold run_from; rewrite N, R; reflexivity).
    destruct (segment_close_within 0 w2 sg2 ex_it) as [[w3 sg3] x] eqn:D. destruct (segment_close w3 sg3 ex_it) as [[w4 sg4] r] eqn:C.
    assert (W : ex_dropped_read 0 = Some (true, repeat (Ok tt) 4, 76, Some None)) by (vm_compute; reflexivity).
    assert (F : ex_dropped_file 0 = match x with None => directory_after (fun _ => None) (wd_log w4) (index_path ex_base (si_segment_id ex_info)) | Some _ => None end).
    { unfold ex_dropped_file, ex_dropped. fold ops. rewrite RF, D. destruct x; [reflexivity|]. rewrite C. reflexivity. }
    unfold ex_dropped_read, ex_dropped in W. fold ops in W. rewrite RF, D in W. destruct x as [x|]; [discriminate W|]. rewrite C in W.
    rewrite F in W. clear F. destruct (directory_after _ (wd_log w4) _) as [file|] eqn:F; [|discriminate W].
    injection W as _ RS LF RI. change [Ok tt; Ok tt; Ok tt; Ok tt] with ([Ok tt; Ok tt; Ok tt] ++ [Ok tt]) in RS. apply app_inj_tail in RS. destruct RS as [RS ->].
    assert (G : exists m, read_index_file file = Some m /\ describes_segment ex_info (closed_columns ops) m).
    { refine (H _ _ _ _ _ _ _ _ _ _ _ _ _ _ _ _ _ _ _ _ _ N _ R _ D C F _).
      - cbn. lia.
      - split; [reflexivity|repeat constructor].
      - repeat constructor; intros l; cbn; try apply Permutation_rev; apply Permutation_refl.
      - rewrite RS. repeat constructor.
      - rewrite LF. reflexivity. }
    destruct G as (m & RM & s & MS & _). rewrite RM in RI. cbn [option_map] in RI. rewrite MS in RI. discriminate RI.
  - assert (RF : run_from Debug ex_world ex_base ex_info ops = None) by (unfold run_from; rewrite N, R; reflexivity). vm_compute in RF. discriminate RF.
  - assert (RF : run_from Debug ex_world ex_base ex_info ops = None) by (unfold run_from; rewrite N, R; reflexivity). vm_compute in RF. discriminate RF.
Qed.
Print Assumptions C74_refuted.
