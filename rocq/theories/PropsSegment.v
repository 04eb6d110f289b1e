(** C45, C46, C47, C51: the files of a closed segment. *)
From Verif Require Import Base Buffers Sink PrimEnc BinEnc Io SpecIo IoProofs PropsIo Metadata Proto SpecProto ProtoProofs ReadBlock
  BlockProofs Names PropsNames Segment SpecSegment SegmentProofs SegmentRunProofs.
From Coq Require Import Permutation.
Open Scope nat_scope.

(** * The files after a successful close *)

Lemma closed_files d p w base info w1 sg ops it w2 sg2 rs :
  0 < wd_max w -> is_id (si_segment_id info) -> segment_new w base info = (w1, Ok sg) ->
  orders_ok (ops ++ [SClose it]) -> seg_run p w1 sg (ops ++ [SClose it]) = Ret (w2, sg2, rs) -> all_ok rs ->
  exists blocks middle m,
    segment_blocks p ops = Ret blocks
    /\ fst (fold_left mark_step (outline ops) (meta_new info, index_file_signature)) = sg_meta sg2
    /\ snd (fold_left mark_step (outline ops) (meta_new info, index_file_signature)) = index_file_signature ++ middle
    /\ m = meta_ordered it (sg_meta sg2)
    /\ meta_ok info (closed_columns ops) m
    /\ directory_after d (wd_log w2) (data_path base (si_segment_id info)) = Some (data_file_signature ++ bytes_in blocks)
    /\ directory_after d (wd_log w2) (index_path base (si_segment_id info))
       = Some (index_file_signature ++ middle ++ encode_metadata m ++ le_bytes 8 (N.of_nat (12 + length middle))).
Proof.
  intros M ID N O H A. destruct (C49_distinct base _ _ ID ID) as (_ & _ & NE).
  pose proof (segment_new_ok d p _ _ _ _ _ M ID N) as R0.
  apply seg_run_split in H; [|exact A]. destruct H as (wa & sa & ra & rb & H1 & A1 & H2 & A2).
  apply Forall_app in O. destruct O as [O1 O2].
  destruct (seg_run_ok d p _ _ info NE _ _ _ _ _ _ _ R0 O1 H1 A1) as (blocks & middle & B & MK & I). cbn [app] in B, MK, I.
  cbn [seg_run seg_step] in H2. destruct (segment_close wa sa it) as [[wb sb] r] eqn:C. cbn [bind app] in H2. injection H2 as <- <- <-.
  apply Forall_cons_iff in A2. destruct A2 as [-> _]. apply Forall_cons_iff in O2. destruct O2 as [O2 _].
  destruct (segment_close_ok d _ _ info NE _ _ _ _ _ _ _ _ I O2 C) as (m & MO & EM & SM & _ & _ & DI & DD & _).
  exists blocks, middle, m. split; [exact B|]. rewrite MK. cbn [fst snd]. split; [congruence|]. split; [reflexivity|]. split; [congruence|]. split; [exact MO|].
  split; [exact DD|]. rewrite DI, app_length, <- app_assoc. reflexivity.
Qed.

(** * C45 *)

(** [offsets] are the ends of [blocks], which are in [file] from [from] on, one
    after the other. *)
Fixpoint delimits (file : list N) (from : N) (offsets : list N) (blocks : list (list N)) : Prop :=
  match offsets, blocks with
  | [], [] => True
  | o :: os, b :: bs =>
      (from <= o <= N.of_nat (length file))%N
      /\ firstn (N.to_nat o - N.to_nat from) (skipn (N.to_nat from) file) = b
      /\ delimits file o os bs
  | _, _ => False
  end.

Lemma delimits_ends blocks : forall before after,
  delimits (before ++ bytes_in blocks ++ after) (N.of_nat (length before)) (ends (N.of_nat (length before)) blocks) (map snd blocks).
Proof.
  induction blocks as [|[r b] blocks IH]; intros before after; cbn [ends map snd delimits]; [exact I|].
  change (bytes_in ((r, b) :: blocks)) with (b ++ bytes_in blocks). split; [rewrite !app_length; lia|]. split.
  - replace (N.to_nat (N.of_nat (length before) + N.of_nat (length b)) - N.to_nat (N.of_nat (length before))) with (length b) by lia.
    rewrite Nat2N.id, skipn_app, skipn_all, Nat.sub_diag. cbn [app skipn]. rewrite <- app_assoc, firstn_app, firstn_all, Nat.sub_diag. cbn [firstn]. apply app_nil_r.
  - specialize (IH (before ++ b) after). rewrite app_length, Nat2N.inj_add, <- app_assoc in IH. rewrite <- (app_assoc b). exact IH.
Qed.

(** The data file is its signature, "MEERKAT_DATA1", and the blocks. *)
Theorem C45_data_file : forall d p w base info w1 sg ops it w2 sg2 rs,
  0 < wd_max w -> is_id (si_segment_id info) -> segment_new w base info = (w1, Ok sg) ->
  orders_ok (ops ++ [SClose it]) -> seg_run p w1 sg (ops ++ [SClose it]) = Ret (w2, sg2, rs) -> all_ok rs ->
  exists blocks, segment_blocks p ops = Ret blocks
    /\ directory_after d (wd_log w2) (data_path base (si_segment_id info))
       = Some ([77; 69; 69; 82; 75; 65; 84; 95; 68; 65; 84; 65; 49]%N ++ concat (map snd blocks)).
Proof.
  intros d p w base info w1 sg ops it w2 sg2 rs M ID N O H A.
  destruct (closed_files d _ _ _ _ _ _ _ _ _ _ _ M ID N O H A) as (blocks & _ & _ & B & _ & _ & _ & _ & DD & _).
  exists blocks. split; [exact B|exact DD].
Qed.
Print Assumptions C45_data_file.

(** While a column is open, having done [cops] (which may include closing it),
    the block index delimits its blocks in what will be the data file, whatever
    follows; the first block starts where the blocks of earlier columns end. *)
Theorem C45_block_index : forall d p w base info w1 sg ops ci cops more it w2 sg2 rs,
  0 < wd_max w -> is_id (si_segment_id info) -> segment_new w base info = (w1, Ok sg) ->
  orders_ok (ops ++ [SColumn ci cops] ++ more ++ [SClose it]) ->
  seg_run p w1 sg (ops ++ [SColumn ci cops] ++ more ++ [SClose it]) = Ret (w2, sg2, rs) -> all_ok rs ->
  exists earlier blocks wi sgi rsi file,
    segment_blocks p ops = Ret earlier /\ column_blocks p ci cops = Ret blocks
    /\ seg_run p w1 sg (ops ++ [SColumn ci cops]) = Ret (wi, sgi, rsi)
    /\ directory_after d (wd_log w2) (data_path base (si_segment_id info)) = Some file
    /\ bi_row_id (sg_block_index sgi) = map fst blocks
    /\ delimits file (13 + N.of_nat (length (concat (map snd earlier)))) (bi_offset (sg_block_index sgi)) (map snd blocks).
Proof.
  intros d p w base info w1 sg ops ci cops more it w2 sg2 rs M ID N O H A. destruct (C49_distinct base _ _ ID ID) as (_ & _ & NE).
  pose proof (segment_new_ok d p _ _ _ _ _ M ID N) as R0.
  assert (H' := H). assert (O' := O). replace (ops ++ [SColumn ci cops] ++ more ++ [SClose it]) with ((ops ++ [SColumn ci cops] ++ more) ++ [SClose it]) in H', O' by (rewrite <- !app_assoc; reflexivity).
  destruct (closed_files d _ _ _ _ _ _ _ _ _ _ _ M ID N O' H' A) as (all & _ & _ & B & _ & _ & _ & _ & DD & _).
  apply seg_run_split in H; [|exact A]. destruct H as (wa & sa & ra & rb & H1 & A1 & H2 & A2).
  apply seg_run_split in H2; [|exact A2]. destruct H2 as (wb & sb & rb1 & rb2 & H2 & A3 & _).
  apply Forall_app in O. destruct O as [O1 _].
  destruct (seg_run_ok d p _ _ info NE _ _ _ _ _ _ _ R0 O1 H1 A1) as (earlier & idx & Be & _ & I). cbn [app] in Be, I.
  assert (H12 : seg_run p w1 sg (ops ++ [SColumn ci cops]) = Ret (wb, sb, ra ++ rb1)) by (rewrite seg_run_app, H1; cbn [bind]; rewrite H2; reflexivity).
  cbn [seg_run seg_step] in H2. destruct (new_binary_column_writer sa ci) as [sn [cw|]] eqn:EO.
  2:{ cbn [bind app] in H2. injection H2 as <- <- <-. apply Forall_cons_iff in A3. destruct A3 as [A3 _]. discriminate. }
  destruct (open_inv _ _ _ _ EO) as (-> & CI & EN & NEW).
  destruct (column_run p wa _ cw cops) as [[[wc sc] rc]|k|] eqn:R; cbn [bind app] in H2; try discriminate. injection H2 as <- <- <-.
  apply Forall_cons_iff in A3. destruct A3 as [_ A3]. rewrite app_nil_r in A3.
  assert (I0 : seg_inv d (data_path base (si_segment_id info)) (index_path base (si_segment_id info)) info wa (mksegment (sg_data sa) (sg_index sa) bi_new (sg_meta sa)) (data_file_signature ++ bytes_in earlier) (index_file_signature ++ idx) (closed_columns ops)) by exact I.
  destruct (column_run_ok d p _ _ info NE _ _ _ _ _ _ _ _ _ _ I0 EN R A3) as (bl & _ & _ & BI & _ & G). specialize (G []). cbn [app] in G.
  eexists earlier, bl, wc, sc, _, (data_file_signature ++ bytes_in all). split; [exact Be|].
  assert (CB : column_blocks p ci cops = Ret bl) by (unfold column_blocks; rewrite NEW; exact G).
  split; [exact CB|]. split; [exact H12|]. split; [exact DD|]. rewrite BI. cbn [bi_row_id bi_offset sg_block_index bi_new app]. split; [reflexivity|].
  rewrite segment_blocks_app, Be in B. cbn [bind app segment_blocks] in B. rewrite CB in B. cbn [bind] in B.
  destruct (segment_blocks p more) as [rest|k|]; cbn [bind] in B; try discriminate. injection B as <-.
  rewrite !bytes_in_app. rewrite (app_assoc data_file_signature).
  replace (13 + N.of_nat (length (concat (map snd earlier))))%N with (N.of_nat (length (data_file_signature ++ bytes_in earlier)))
    by (rewrite app_length; unfold bytes_in; cbn [length data_file_signature]; lia).
  apply delimits_ends.
Qed.
Print Assumptions C45_block_index.

(** ** Nothing goes wrong by itself *)

Definition supported (ops : list seg_op) : Prop :=
  Forall (fun o => match o with SColumn ci _ => ci_encoding ci = Raw \/ ci_encoding ci = Snappy | SClose _ => True end) ops.

Section Healthy.
Context (d : directory) (p : profile) (fd fi : path) (NE : fd <> fi).

Definition healthy (w : world) (sg : segment) : Prop :=
  opened d fd w (sg_data sg) /\ opened d fi w (sg_index sg) /\ all_succeed w
  /\ tf_err (wr_file (sg_data sg)) = false /\ tf_err (wr_file (sg_index sg)) = false
  /\ md_segment_meta (sg_meta sg) <> None.

Lemma column_run_succeeds ops : forall w sg cw acc acc', healthy w sg -> encoder_run p (cw_encoder cw) ops acc = Ret acc' ->
  exists w1 sg1 rs, column_run p w sg cw ops = Ret (w1, sg1, rs) /\ all_ok rs /\ healthy w1 sg1.
Proof.
  induction ops as [|o ops IH]; intros w sg cw acc acc' HL H.
  - exists w, sg, []. split; [reflexivity|]. split; [constructor|exact HL].
  - destruct HL as (OD & OI & AS & ED & EI & MM). destruct o as [b|]; cbn [encoder_run] in H.
    + destruct (bin_encode collect p (cw_encoder cw) b acc) as [[[e acc1] res]|k|] eqn:E; cbn [bind] in H; try discriminate.
      destruct (bin_encode_back sink_write p _ _ _ _ _ _ E) as (bl & _ & _ & G).
      destruct (feed_succeeds d fd bl w (sg_data sg) (sg_block_index sg) OD AS ED) as (w1 & wr1 & bi1 & F & AS1 & ED1).
      destruct (feed_touch d fd _ _ _ _ _ _ _ _ F OD) as (X & OD1).
      destruct (IH w1 (mksegment wr1 (sg_index sg) bi1 (sg_meta sg)) (mkcw (cw_info cw) e) acc1 acc') as (w2 & sg2 & rs & R & A & HL2).
      { split; [exact OD1|]. split; [eapply opened_other; eassumption|]. cbn [sg_data sg_index sg_meta]. auto. }
      { exact H. }
      exists w2, sg2, (Ok tt :: rs). cbn [column_run column_step]. unfold column_write. rewrite (G _ _ F). cbn [bind]. rewrite R. cbn [bind].
      split; [reflexivity|]. split; [constructor; [reflexivity|exact A]|exact HL2].
    + destruct (bin_flush collect p (cw_encoder cw) acc) as [[[e acc1] res]|k|] eqn:E; cbn [bind] in H; try discriminate.
      destruct (bin_flush_back sink_write p _ _ _ _ _ E) as (bl & _ & _ & G).
      destruct (feed_succeeds d fd bl w (sg_data sg) (sg_block_index sg) OD AS ED) as (w1 & wr1 & bi1 & F & AS1 & ED1).
      destruct (feed_touch d fd _ _ _ _ _ _ _ _ F OD) as (X & OD1).
      cbn [column_run column_step]. unfold column_close. rewrite (G _ _ F). cbn [bind].
      destruct (md_segment_meta (sg_meta sg)) as [sm|] eqn:EM; [|congruence].
      match goal with |- context [Ret (w1, ?s, ?c, Ok tt)] => destruct (IH w1 s c acc1 acc') as (w2 & sg2 & rs & R & A & HL2) end.
      { split; [exact OD1|]. split; [eapply opened_other; eassumption|]. cbn [sg_data sg_index sg_meta md_segment_meta]. split; [exact AS1|]. split; [exact ED1|]. split; [exact EI|discriminate]. }
      { exact H. }
      exists w2, sg2, (Ok tt :: rs). cbn [bind]. rewrite R. cbn [bind]. split; [reflexivity|]. split; [constructor; [reflexivity|exact A]|exact HL2].
Qed.

Lemma seg_run_succeeds ops : forall w sg blocks, healthy w sg -> supported ops -> segment_blocks p ops = Ret blocks ->
  exists w1 sg1 rs, seg_run p w sg ops = Ret (w1, sg1, rs) /\ all_ok rs /\ healthy w1 sg1.
Proof.
  induction ops as [|o ops IH]; intros w sg blocks HL SU H.
  - exists w, sg, []. split; [reflexivity|]. split; [constructor|exact HL].
  - apply Forall_cons_iff in SU. destruct SU as [SU1 SU]. destruct o as [ci cops|it]; cbn [segment_blocks] in H; cbn [seg_run seg_step].
    + destruct (column_blocks p ci cops) as [bl|k|] eqn:CB; cbn [bind] in H; try discriminate.
      destruct (segment_blocks p ops) as [more|k|] eqn:SB; cbn [bind] in H; try discriminate.
      assert (exists e, new_binary_encoder (ci_encoding ci) 128 (ci_nullable ci) = Ok e) as [e NEW] by (destruct SU1 as [-> | ->]; eexists; reflexivity).
      unfold column_blocks in CB. rewrite NEW in CB. unfold new_binary_column_writer. change segment_block_size with 128%N. rewrite NEW.
      destruct (column_run_succeeds cops w (mksegment (sg_data sg) (sg_index sg) (bi_clear (sg_block_index sg)) (sg_meta sg)) (mkcw ci e) [] bl HL CB) as (w1 & sg1 & rs & R & A & HL1).
      rewrite R. cbn [bind]. destruct (IH _ _ _ HL1 SU eq_refl) as (w2 & sg2 & rs2 & R2 & A2 & HL2). rewrite R2. cbn [bind].
      eexists _, _, _. split; [reflexivity|]. split; [|exact HL2]. cbn [app]. constructor; [reflexivity|]. apply Forall_app. split; assumption.
    + destruct HL as (OD & OI & AS & ED & EI & MM). unfold segment_close. assert (NE' : fi <> fd) by congruence.
      match goal with |- context [writer_write_block w (sg_index sg) ?b] => destruct (writer_write_block w (sg_index sg) b) as [[wa ia] r] eqn:Wa end.
      destruct (write_touch _ _ _ _ _ _ _ _ OI Wa) as (Xa & Oa & _ & HA & HX). rewrite (HA AS EI). specialize (HX EI). pose proof (all_succeed_extends _ _ _ Xa AS) as Aa. clear Wa HA.
      match goal with |- context [writer_write_block wa ia ?b] => destruct (writer_write_block wa ia b) as [[wb ib] r'] eqn:Wb end.
      destruct (write_touch _ _ _ _ _ _ _ _ Oa Wb) as (Xb & Ob & _ & HA & HX2). rewrite (HA Aa HX). specialize (HX2 HX). pose proof (all_succeed_extends _ _ _ Xb Aa) as Ab. clear Wb HA.
      destruct (writer_flush wb ib) as [[wc ic] rc] eqn:Wc. destruct (flush_touch _ _ _ _ _ _ _ Ob Wc) as (Xc & Oc & _ & HA & _ & Ec). rewrite (HA Ab HX2). pose proof (all_succeed_extends _ _ _ Xc Ab) as Ac. clear HA.
      assert (ODc : opened d fd wc (sg_data sg)) by (eapply opened_other; [exact Xc|exact NE'|]; eapply opened_other; [exact Xb|exact NE'|]; eapply opened_other; [exact Xa|exact NE'|exact OD]).
      destruct (writer_flush wc (sg_data sg)) as [[wd dt] rd] eqn:Wd. destruct (flush_touch _ _ _ _ _ _ _ ODc Wd) as (Xd & Od & _ & HA & _ & Ed). rewrite (HA Ac ED). pose proof (all_succeed_extends _ _ _ Xd Ac) as Ad. cbn [bind].
      destruct (IH wd (mksegment dt ic (sg_block_index sg) (sg_meta sg)) blocks) as (w2 & sg2 & rs2 & R2 & A2 & HL2).
      { split; [exact Od|]. split; [eapply opened_other; [exact Xd|exact NE|exact Oc]|]. cbn [sg_data sg_index sg_meta]. auto. }
      { exact SU. }
      { exact H. }
      rewrite R2. cbn [bind]. eexists _, _, _. split; [reflexivity|]. split; [|exact HL2]. constructor; [reflexivity|exact A2].
Qed.
End Healthy.

Lemma segment_succeeds : forall p w base info ops blocks,
  0 < wd_max w -> is_id (si_segment_id info) -> all_succeed w -> supported ops -> segment_blocks p ops = Ret blocks ->
  exists w1 sg w2 sg2 rs, segment_new w base info = (w1, Ok sg) /\ seg_run p w1 sg ops = Ret (w2, sg2, rs) /\ all_ok rs
    /\ healthy (fun _ => None) (data_path base (si_segment_id info)) (index_path base (si_segment_id info)) w2 sg2.
Proof.
  intros p w base info ops blocks M ID AS SU H. destruct (C49_distinct base _ _ ID ID) as (_ & _ & NE).
  set (fd := data_path base (si_segment_id info)) in *. set (fi := index_path base (si_segment_id info)) in *. pose (d := (fun _ => None) : directory).
  assert (NEW : forall w f, 0 < wd_max w -> all_succeed w -> exists w1 wr, writer_new w f = (w1, Ok wr) /\ opened d f w1 wr /\ all_succeed w1 /\ tf_err (wr_file wr) = false
                 /\ exists more, wd_log w1 = wd_log w ++ more /\ Forall (fun e => event_path e = f) more /\ wd_max w1 = wd_max w).
  { clear. intros w f M AS. unfold writer_new, tk_create. destruct (next_fate w) as [fate w0] eqn:NF.
    destruct (next_fate_inv _ _ _ NF) as (HL & HM & _ & HS). pose proof (HS AS) as ->. pose proof (all_succeed_extends _ _ _ (next_fate_extends f _ _ _ NF) AS) as AS0. eexists _, _. split; [reflexivity|].
    split; [|split; [exact AS0|split; [reflexivity|]]].
    - split; [cbn; lia|]. split; [reflexivity|]. exists []. unfold holds. cbn [effect wd_log]. rewrite directory_after_app. cbn [directory_after fold_left apply_effect]. destruct (path_dec f f); congruence.
    - exists [FCreate f]. cbn [effect wd_log wd_max]. rewrite HL. split; [reflexivity|]. split; [repeat constructor|exact HM]. }
  destruct (NEW w fi M AS) as (wa & ix & Na & Oa & Aa & Ea & more & La & _ & Ma).
  destruct (NEW wa fd) as (wb & dt & Nb & Ob & Ab & Eb & more2 & Lb & Fb & Mb); [lia|exact Aa|].
  assert (Oi : opened d fi wb ix).
  { destruct Oa as (M0 & P0 & c & H0). split; [lia|]. split; [exact P0|]. exists c. unfold holds in *. rewrite Lb, directory_after_app, directory_after_other; [exact H0|].
    eapply Forall_impl; [|exact Fb]. cbn. congruence. }
  destruct (writer_write_block wb ix index_file_signature) as [[wc ic] r] eqn:Wc.
  destruct (write_touch _ _ _ _ _ _ _ _ Oi Wc) as (Xc & Oc & _ & HA & HX). specialize (HA Ab Ea). specialize (HX Ea). subst r. pose proof (all_succeed_extends _ _ _ Xc Ab) as Ac.
  assert (Od : opened d fd wc dt) by (eapply opened_other; [exact Xc|congruence|exact Ob]).
  destruct (writer_write_block wc dt data_file_signature) as [[we de] r] eqn:We.
  destruct (write_touch _ _ _ _ _ _ _ _ Od We) as (Xe & Oe & _ & HA & HX2). specialize (HA Ac Eb). specialize (HX2 Eb). subst r. pose proof (all_succeed_extends _ _ _ Xe Ac) as Ae.
  assert (SN : segment_new w base info = (we, Ok (mksegment de ic bi_new (meta_new info)))).
  { unfold segment_new. fold fd fi. rewrite Na, Nb. unfold write_headers. cbn [sg_index sg_data sg_block_index sg_meta]. rewrite Wc, We. reflexivity. }
  destruct (seg_run_succeeds d p fd fi NE ops we (mksegment de ic bi_new (meta_new info)) blocks) as (w2 & sg2 & rs & R & A & HL).
  { split; [exact Oe|]. split; [eapply opened_other; [exact Xe|exact NE|exact Oc]|]. cbn [sg_data sg_index sg_meta]. split; [exact Ae|]. split; [exact HX2|]. split; [exact HX|discriminate]. }
  { exact SU. }
  { exact H. }
  eexists _, _, _, _, _. split; [exact SN|]. split; [exact R|]. split; [exact A|exact HL].
Qed.
Lemma sync_succeeds d fd fi w sg : fd <> fi -> healthy d fd fi w sg -> exists w1, segment_sync w sg = (w1, Ok tt).
Proof.
  intros NE ((MD & PD & c & HD) & (MI & PI & c' & HI) & AS & ED & EI & _). unfold segment_sync, writer_sync.
  destruct (tk_sync_all w (wr_file (sg_index sg))) as [[wa ia] ra] eqn:Sa. rewrite <- PI in HI.
  destruct (tk_sync_all_spec _ _ _ _ _ _ _ Sa HI) as (_ & Xa & _ & _ & _ & Ra). destruct (Ra AS EI) as (_ & ->).
  pose proof (all_succeed_extends _ _ _ Xa AS) as Aa. rewrite PI in Xa.
  assert (OD : opened d fd wa (sg_data sg)).
  { eapply opened_other; [exact Xa|congruence|]. split; [exact MD|]. split; [exact PD|]. exists c. exact HD. }
  destruct OD as (_ & _ & c2 & HD2). rewrite <- PD in HD2.
  destruct (tk_sync_all wa (wr_file (sg_data sg))) as [[wb ib] rb] eqn:Sb.
  destruct (tk_sync_all_spec _ _ _ _ _ _ _ Sb HD2) as (_ & _ & _ & _ & _ & Rb). destruct (Rb Aa ED) as (_ & ->).
  eexists. reflexivity.
Qed.

(** If the operating system does its part, the encodings are supported and
    encoding itself does not panic (see C33 and C35), everything succeeds, and
    so does a sync afterwards. *)
Theorem C45_no_false_alarm : forall p w base info ops blocks,
  0 < wd_max w -> is_id (si_segment_id info) -> all_succeed w -> supported ops -> segment_blocks p ops = Ret blocks ->
  exists w1 sg w2 sg2 rs, segment_new w base info = (w1, Ok sg) /\ seg_run p w1 sg ops = Ret (w2, sg2, rs) /\ all_ok rs
    /\ exists w3, segment_sync w2 sg2 = (w3, Ok tt).
Proof.
  intros p w base info ops blocks M ID AS SU H. destruct (C49_distinct base _ _ ID ID) as (_ & _ & NE).
  destruct (segment_succeeds _ _ base _ _ _ M ID AS SU H) as (w1 & sg & w2 & sg2 & rs & N & R & A & HL).
  exists w1, sg, w2, sg2, rs. split; [exact N|]. split; [exact R|]. split; [exact A|]. eapply sync_succeeds; eassumption.
Qed.
Print Assumptions C45_no_false_alarm.

(** * C46 *)

Lemma some_inv {A} (x y : A) : Some x = Some y -> x = y.
Proof. congruence. Qed.

Lemma footer_reads index meta : (N.of_nat (length index) < 18446744073709551616)%N ->
  let bytes := index ++ meta ++ le_bytes 8 (N.of_nat (length index)) in
  le_value (skipn (length bytes - 8) bytes) = N.of_nat (length index)
  /\ length bytes = length index + length meta + 8
  /\ firstn (length bytes - 8 - length index) (skipn (length index) bytes) = meta.
Proof.
  intros H bytes. assert (L : length bytes = length index + length meta + 8) by (unfold bytes; rewrite !app_length, le_length; lia).
  split; [|split; [exact L|]].
  - rewrite L. replace (length index + length meta + 8 - 8) with (length (index ++ meta)) by (rewrite app_length; lia). unfold bytes.
    rewrite app_assoc, skipn_app, skipn_all, Nat.sub_diag. cbn [app skipn]. apply le_value_bytes. exact H.
  - rewrite L. unfold bytes. rewrite skipn_app, skipn_all, Nat.sub_diag. cbn [app skipn].
    replace (length index + length meta + 8 - 8 - length index) with (length meta) by lia.
    rewrite firstn_app, firstn_all, Nat.sub_diag. cbn [firstn]. apply app_nil_r.
Qed.

Lemma meta_ok_readable info closed m : meta_ok info closed m -> read_metadata (encode_metadata m) = Some m.
Proof.
  intros (cols & lays & -> & (ND & _) & (ND' & _)). apply read_encode_metadata; cbn [md_segment_meta md_columns_layout]; [|exact ND'].
  intros s [= <-]. exact ND.
Qed.

(** The index file starts with "MEERKAT_IDX1"; its last eight bytes tell where
    the metadata starts, which goes up to these; if the segment was not closed
    before, the metadata follows the signature immediately. *)
Theorem C46_footer : forall d p w base info w1 sg ops it w2 sg2 rs file,
  0 < wd_max w -> is_id (si_segment_id info) -> segment_new w base info = (w1, Ok sg) ->
  orders_ok (ops ++ [SClose it]) -> seg_run p w1 sg (ops ++ [SClose it]) = Ret (w2, sg2, rs) -> all_ok rs ->
  directory_after d (wd_log w2) (index_path base (si_segment_id info)) = Some file ->
  (N.of_nat (length file) < 18446744073709551616)%N ->
  let n := length file in
  let pos := N.to_nat (le_value (skipn (n - 8) file)) in
  firstn 12 file = [77; 69; 69; 82; 75; 65; 84; 95; 73; 68; 88; 49]%N
  /\ 12 <= pos <= n - 8 /\ 20 <= n
  /\ (exists m, read_metadata (firstn (n - 8 - pos) (skipn pos file)) = Some m
        /\ exists s, md_segment_meta m = Some s /\ sm_segment_id s = si_segment_id info)
  /\ ((forall it', ~ In (SClose it') ops) -> pos = 12).
Proof.
  intros d p w base info w1 sg ops it w2 sg2 rs file M ID N O H A DF SZ n pos.
  destruct (closed_files d _ _ _ _ _ _ _ _ _ _ _ M ID N O H A) as (blocks & middle & m & _ & _ & MK & _ & MO & _ & DI).
  rewrite DI in DF. apply some_inv in DF.
  assert (PL : 12 + length middle = length (index_file_signature ++ middle)) by (rewrite app_length; reflexivity).
  rewrite PL, (app_assoc index_file_signature) in DF.
  destruct (footer_reads (index_file_signature ++ middle) (encode_metadata m)) as (E1 & E2 & E3); [clear -SZ DF; rewrite <- DF, app_length in SZ; lia|].
  cbn zeta in E1, E2, E3. rewrite DF in E1, E2, E3. fold n in E1, E2, E3. unfold pos. rewrite E1, Nat2N.id. rewrite E3.
  split; [rewrite <- DF; reflexivity|]. split; [rewrite E2; lia|]. split; [rewrite E2; lia|]. split.
  - exists m. split; [eapply meta_ok_readable, MO|]. destruct MO as (cols & lays & -> & _). eexists. split; reflexivity.
  - intros NC. rewrite <- PL. replace middle with (@nil BinNums.N); [reflexivity|]. symmetry. apply (app_inv_head index_file_signature). rewrite app_nil_r, <- MK. clear -NC.
    assert (G : forall st, snd st = index_file_signature -> snd (fold_left mark_step (outline ops) st) = index_file_signature); [|apply G; reflexivity].
    induction ops as [|o ops IH]; intros st E; [exact E|]. unfold outline. cbn [flat_map]. rewrite fold_left_app. fold (outline ops).
    destruct o as [ci cops|it]; [|exfalso; apply (NC it); left; reflexivity].
    apply IH; [intros it' X; apply (NC it'); right; exact X|]. cbn [marks_in]. destruct st as [m i]. rewrite marks_insert. exact E.
Qed.
Print Assumptions C46_footer.

(** * C47 *)

(** The enumerations of src/store/segment_metadata.proto:17-28, 30-36 and 38-43,
    in the order of their numbers. *)
Definition proto_column_types : list column_type :=
  [TBool; TDatetime; TDecimal; TDynamic; TFloat64; TGuid; TInt32; TInt64; TString; TTimespan].
Definition proto_encodings : list encoding := [Raw; BitPacked; DeltaBinaryPacked; RleDictionary; Snappy].
Definition proto_index_types : list index_type := [NoIndex; FullText; Brin; Kdtree].

(** The entry [c] describes the column [ci]. *)
Definition column_entry (ci : column_info) (c : column_meta) : Prop :=
  cm_name c = ci_name ci /\ nth_error proto_column_types (N.to_nat (cm_type c)) = Some (ci_type ci)
  /\ cm_nullable c = ci_nullable ci
  /\ nth_error proto_encodings (N.to_nat (cm_encoding c)) = Some (ci_encoding ci)
  /\ nth_error proto_index_types (N.to_nat (cm_index_type c)) = Some (ci_index_type ci).

Lemma column_meta_entry ci : column_entry ci (column_meta_of ci).
Proof.
  destruct ci as [name ty enc it nl]. unfold column_entry. cbn [column_meta_of cm_name cm_type cm_nullable cm_encoding cm_index_type
    ci_name ci_type ci_nullable ci_encoding ci_index_type].
  split; [reflexivity|]. split; [destruct ty; reflexivity|]. split; [reflexivity|]. split; [destruct enc|destruct it]; reflexivity.
Qed.

(** The encoder part of a column layout. *)
Definition layout_entry (ci : column_info) (c : column_layout) : Prop :=
  cl_encoder c = Some (match ci_encoding ci with Snappy => ESnappy | _ => EPlain end).

(** An entry for every name of a closed column and no others, describing the
    last column of that name. *)
Definition entries {A} (entry : column_info -> A -> Prop) (closed : list column_info) (m : list (list N * A)) : Prop :=
  NoDup (map fst m)
  /\ forall name, match last_named name closed, assoc name m with
                  | Some ci, Some c => entry ci c
                  | None, None => True
                  | _, _ => False
                  end.

Lemma describes_entries {A} f (entry : column_info -> A -> Prop) closed m : (forall ci, entry ci (f ci)) -> describes f closed m -> entries entry closed m.
Proof. intros E [ND D]. split; [exact ND|]. intros name. rewrite D. destruct (last_named name closed) as [ci|]; cbn [option_map]; [apply E|exact I]. Qed.

(** What is read from the index file. *)
Lemma closed_read d p w base info w1 sg ops it w2 sg2 rs file :
  0 < wd_max w -> is_id (si_segment_id info) -> segment_new w base info = (w1, Ok sg) ->
  orders_ok (ops ++ [SClose it]) -> seg_run p w1 sg (ops ++ [SClose it]) = Ret (w2, sg2, rs) -> all_ok rs ->
  directory_after d (wd_log w2) (index_path base (si_segment_id info)) = Some file ->
  (N.of_nat (length file) < 18446744073709551616)%N ->
  exists cols lays,
    read_index_file file = Some (mkmeta (Some (mksmeta (si_segment_id info) (si_database_name info) (si_table_name info) (si_shard_id info) 0 0
                                                 (si_num_rows info) cols)) lays)
    /\ describes column_meta_of (closed_columns ops) cols /\ describes layout_of (closed_columns ops) lays.
Proof.
  intros M ID N O H A DF SZ.
  pose proof (C46_footer d p w base info w1 sg ops it w2 sg2 rs file M ID N O H A DF SZ) as (F1 & F2 & F3 & _).
  destruct (closed_files d _ _ _ _ _ _ _ _ _ _ _ M ID N O H A) as (blocks & middle & m & _ & _ & _ & _ & MO & _ & DI).
  rewrite DI in DF. apply some_inv in DF. subst file.
  assert (PL : 12 + length middle = length (index_file_signature ++ middle)) by (rewrite app_length; reflexivity).
  set (file := index_file_signature ++ middle ++ encode_metadata m ++ le_bytes 8 (N.of_nat (12 + length middle))) in *.
  assert (FE : file = (index_file_signature ++ middle) ++ encode_metadata m ++ le_bytes 8 (N.of_nat (length (index_file_signature ++ middle)))) by (unfold file; rewrite <- app_assoc, PL; reflexivity).
  destruct (footer_reads (index_file_signature ++ middle) (encode_metadata m)) as (E1 & E2 & E3); [clear -SZ FE; rewrite FE in SZ; rewrite app_length in SZ; lia|].
  cbn zeta in E1, E2, E3. rewrite <- FE in E1, E2, E3.
  assert (R : read_index_file file = Some m).
  { unfold read_index_file. cbn zeta. rewrite (proj2 (Nat.leb_le _ _) F3), (proj2 (Nat.leb_le _ _) (proj1 F2)), (proj2 (Nat.leb_le _ _) (proj2 F2)). cbn [andb].
    rewrite F1. destruct (list_eq_dec N.eq_dec _ _) as [_|n]; [|congruence]. rewrite E1, Nat2N.id, E3. eapply meta_ok_readable, MO. }
  destruct MO as (cols & lays & -> & DC & DL). exists cols, lays. split; [exact R|]. split; assumption.
Qed.

Theorem C47_round_trip : forall d p w base info w1 sg ops it w2 sg2 rs file,
  0 < wd_max w -> is_id (si_segment_id info) -> segment_new w base info = (w1, Ok sg) ->
  orders_ok (ops ++ [SClose it]) -> seg_run p w1 sg (ops ++ [SClose it]) = Ret (w2, sg2, rs) -> all_ok rs ->
  directory_after d (wd_log w2) (index_path base (si_segment_id info)) = Some file ->
  (N.of_nat (length file) < 18446744073709551616)%N ->
  exists s lays,
    read_index_file file = Some (mkmeta (Some s) lays)
    /\ sm_segment_id s = si_segment_id info /\ sm_database_name s = si_database_name info
    /\ sm_table_name s = si_table_name info /\ sm_shard_id s = si_shard_id info /\ sm_num_rows s = si_num_rows info
    /\ entries column_entry (closed_columns ops) (sm_columns_meta s)
    /\ entries layout_entry (closed_columns ops) lays.
Proof.
  intros d p w base info w1 sg ops it w2 sg2 rs file M ID N O H A DF SZ.
  destruct (closed_read d p w base info w1 sg ops it w2 sg2 rs file M ID N O H A DF SZ) as (cols & lays & R & DC & DL).
  eexists _, lays. split; [exact R|]. cbn [sm_segment_id sm_database_name sm_table_name sm_shard_id sm_num_rows sm_columns_meta].
  split; [reflexivity|]. split; [reflexivity|]. split; [reflexivity|]. split; [reflexivity|]. split; [reflexivity|].
  split; eapply describes_entries; try eassumption; intros ci; [apply column_meta_entry|reflexivity].
Qed.
Print Assumptions C47_round_trip.

(** The numbers stored for types, encodings and index types tell them apart, and
    are those of the description of the format. *)
Theorem C47_numbers_distinct :
  (forall a b, column_type_num a = column_type_num b -> a = b)
  /\ (forall a b, encoding_num a = encoding_num b -> a = b)
  /\ (forall a b, index_type_num a = index_type_num b -> a = b)
  /\ map column_type_num proto_column_types = map N.of_nat (seq 0 10)
  /\ map encoding_num proto_encodings = map N.of_nat (seq 0 5)
  /\ map index_type_num proto_index_types = map N.of_nat (seq 0 4).
Proof. split; [|split; [|split; [|split; [|split]]]]; try reflexivity; intros a b; destruct a, b; cbn; intros H; congruence || discriminate. Qed.
Print Assumptions C47_numbers_distinct.

(** * C51 *)

Lemma last_named_app name a b : last_named name (a ++ b) = match last_named name b with Some ci => Some ci | None => last_named name a end.
Proof. induction b as [|x b IH] using rev_ind; [rewrite app_nil_r; reflexivity|]. rewrite app_assoc, !last_named_snoc. destruct (list_eq_dec N.eq_dec name (ci_name x)); [reflexivity|exact IH]. Qed.

Lemma last_named_none name cols : Forall (fun ci => ci_name ci <> name) cols -> last_named name cols = None.
Proof.
  induction cols as [|x cols IH] using rev_ind; intros F; [reflexivity|]. apply Forall_app in F. destruct F as [F1 F2]. apply Forall_cons_iff in F2. destruct F2 as [F2 _].
  rewrite last_named_snoc. destruct (list_eq_dec N.eq_dec name (ci_name x)); [congruence|auto].
Qed.

(** The metadata in the index file describes the last column of a name that was
    closed, and only it. *)
Theorem C51_last_wins : forall d p w base info w1 sg ops it w2 sg2 rs file before ci after,
  0 < wd_max w -> is_id (si_segment_id info) -> segment_new w base info = (w1, Ok sg) ->
  orders_ok (ops ++ [SClose it]) -> seg_run p w1 sg (ops ++ [SClose it]) = Ret (w2, sg2, rs) -> all_ok rs ->
  directory_after d (wd_log w2) (index_path base (si_segment_id info)) = Some file ->
  (N.of_nat (length file) < 18446744073709551616)%N ->
  closed_columns ops = before ++ ci :: after -> Forall (fun x => ci_name x <> ci_name ci) after ->
  exists s lays c l,
    read_index_file file = Some (mkmeta (Some s) lays) /\ column_entry ci c /\ layout_entry ci l
    /\ (forall c', In (ci_name ci, c') (sm_columns_meta s) <-> c' = c)
    /\ (forall l', In (ci_name ci, l') lays <-> l' = l).
Proof.
  intros d p w base info w1 sg ops it w2 sg2 rs file before ci after M ID N O H A DF SZ EC FA.
  destruct (C47_round_trip d p w base info w1 sg ops it w2 sg2 rs file M ID N O H A DF SZ) as (s & lays & R & _ & _ & _ & _ & _ & (ND & EN) & (ND' & EN')).
  assert (LN : last_named (ci_name ci) (closed_columns ops) = Some ci).
  { rewrite EC. change (ci :: after) with ([ci] ++ after). rewrite !last_named_app, (last_named_none _ _ FA). unfold last_named. cbn. destruct (list_eq_dec N.eq_dec (ci_name ci) (ci_name ci)); congruence. }
  specialize (EN (ci_name ci)). specialize (EN' (ci_name ci)). rewrite LN in EN, EN'.
  destruct (assoc (ci_name ci) (sm_columns_meta s)) as [c|] eqn:Ec; [|contradiction]. destruct (assoc (ci_name ci) lays) as [l|] eqn:El; [|contradiction].
  exists s, lays, c, l. split; [exact R|]. split; [exact EN|]. split; [exact EN'|].
  split; [intros c'; rewrite <- (assoc_in _ _ _ ND)|intros l'; rewrite <- (assoc_in _ _ _ ND')]; rewrite ?Ec, ?El; split; congruence.
Qed.
Print Assumptions C51_last_wins.

(** Adding a column, at any point, leaves the entries of other names as they
    are. *)
Theorem C51_others_unaffected : forall d p w base info w1 sg a ci cops b it w2 sg2 rs file w2' sg2' rs' file' it' name,
  0 < wd_max w -> is_id (si_segment_id info) -> segment_new w base info = (w1, Ok sg) ->
  orders_ok ((a ++ b) ++ [SClose it]) -> seg_run p w1 sg ((a ++ b) ++ [SClose it]) = Ret (w2, sg2, rs) -> all_ok rs ->
  orders_ok ((a ++ SColumn ci cops :: b) ++ [SClose it']) ->
  seg_run p w1 sg ((a ++ SColumn ci cops :: b) ++ [SClose it']) = Ret (w2', sg2', rs') -> all_ok rs' ->
  directory_after d (wd_log w2) (index_path base (si_segment_id info)) = Some file ->
  directory_after d (wd_log w2') (index_path base (si_segment_id info)) = Some file' ->
  (N.of_nat (length file) < 18446744073709551616)%N -> (N.of_nat (length file') < 18446744073709551616)%N ->
  name <> ci_name ci ->
  exists s lays s' lays',
    read_index_file file = Some (mkmeta (Some s) lays) /\ read_index_file file' = Some (mkmeta (Some s') lays')
    /\ (forall c, In (name, c) (sm_columns_meta s) <-> In (name, c) (sm_columns_meta s'))
    /\ (forall l, In (name, l) lays <-> In (name, l) lays').
Proof.
  intros d p w base info w1 sg a ci cops b it w2 sg2 rs file w2' sg2' rs' file' it' name M ID N O H A O' H' A' DF DF' SZ SZ' NN.
  destruct (closed_read d p _ _ _ _ _ _ _ _ _ _ _ M ID N O H A DF SZ) as (cols & lays & R & (ND & DC) & (NL & DL)).
  destruct (closed_read d p _ _ _ _ _ _ _ _ _ _ _ M ID N O' H' A' DF' SZ') as (cols' & lays' & R' & (ND' & DC') & (NL' & DL')).
  eexists _, lays, _, lays'. split; [exact R|]. split; [exact R'|]. cbn [sm_columns_meta].
  assert (LE : last_named name (closed_columns (a ++ SColumn ci cops :: b)) = last_named name (closed_columns (a ++ b))).
  { unfold closed_columns. rewrite !flat_map_app. cbn [flat_map]. rewrite !last_named_app. destruct (last_named name (flat_map closed_in b)) as [x|]; [reflexivity|].
    rewrite (last_named_none name (closed_in _)); [reflexivity|]. cbn [closed_in]. clear -NN. induction cops as [|[|] cops IH]; cbn [flat_map app]; [constructor|exact IH|constructor; [congruence|exact IH]]. }
  split; [intros c; rewrite <- (assoc_in _ _ _ ND), <- (assoc_in _ _ _ ND'), DC, DC', LE; tauto|].
  intros l. rewrite <- (assoc_in _ _ _ NL), <- (assoc_in _ _ _ NL'), DL, DL', LE. tauto.
Qed.
Print Assumptions C51_others_unaffected.
