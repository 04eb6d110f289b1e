(** Property C109: a block read from a segment that is still being written is the
    block or an error (segment_writer.rs, io/unix_disk_block_reader.rs). *)
From Verif Require Import Base BaseProofs Buffers Sink PrimEnc BinEnc Io SpecIo IoProofs PropsIo Metadata Proto SpecProto ProtoProofs ReadBlock BlockProofs Names PropsNames Segment SpecSegment
  SegmentProofs SegmentRunProofs PropsSegment PropsSegmentEx PropsSegmentRef PropsReadBack PropsTorn PropsIndexErr Cancel PropsCancel PropsCancelCol Caught PropsCaughtSeg PropsCaughtTorn.
Open Scope nat_scope.

(** * What is in the file while blocks are written *)

(** The file and the piece being written have all of the blocks, and the piece is
    within the last block that is not empty. *)
Definition ahead (d : directory) (f : path) (w : world) (wr : writer) (pre : list N) (bl : list (N * list N)) : Prop :=
  0 < wd_max w /\ tf_path (wr_file wr) = f /\ tf_err (wr_file wr) = false
  /\ exists c, holds d w f c /\ c ++ pending (wr_file wr) = pre ++ bytes_in bl
     /\ forall x y, bl = x ++ y -> bytes_in y <> [] -> length (pre ++ bytes_in x) <= length c.

Lemma ahead_opened d f w wr pre bl : ahead d f w wr pre bl -> opened d f w wr.
Proof. intros (M & P & _ & c & H & _). split; [exact M|]. split; [exact P|]. exists c. exact H. Qed.

Lemma ahead_write d f w wr pre bl r b w1 wr1 : ahead d f w wr pre bl -> writer_write_block w wr b = (w1, wr1, Ok tt) -> ahead d f w1 wr1 pre (bl ++ [(r, b)]).
Proof.
  intros (M & P & E & c & H & EQ & A) W. assert (OP : opened d f w wr) by (split; [exact M|]; split; [exact P|]; exists c; exact H).
  destruct (write_touch _ _ _ _ _ _ _ _ OP W) as (X & (M1 & P1 & _) & _ & _ & E1). split; [exact M1|]. split; [exact P1|]. split; [exact (E1 E)|].
  unfold writer_write_block in W. destruct (tk_write_all _ _ _ _) as [[a f1] rr] eqn:T. injection W as <- <- ->. cbn [wr_file] in *. rewrite <- P in H.
  destruct (tk_write_all_spec _ _ _ _ _ _ _ _ _ T H (le_n _) M) as (_ & _ & _ & _ & HO & _).
  destruct b as [|x0 b0].
  - assert (T' : a = w /\ f1 = wr_file wr) by (destruct (wr_file wr); cbn in T; injection T as <- <-; auto). destruct T' as [-> ->].
    exists c. split; [rewrite <- P; exact H|]. assert (BN : bytes_in (bl ++ [(r, [])]) = bytes_in bl) by (rewrite bytes_in_app; cbn; rewrite !app_nil_r; reflexivity). rewrite BN. split; [exact EQ|].
    intros x y S1 NN. assert (NY : y <> []) by (intros ->; cbn in NN; congruence).
    destruct (exists_last NY) as (y0 & l & ->). rewrite app_assoc in S1. apply app_inj_tail in S1. destruct S1 as [S1 <-]. apply (A x y0 S1).
    intros Z. apply NN. rewrite bytes_in_app, Z. reflexivity.
  - destruct (HO ltac:(discriminate) eq_refl) as (p0 & chunk & EB & _ & _ & BU & H1 & _). rewrite P in H1. exists (c ++ pending (wr_file wr) ++ p0). split; [exact H1|].
    rewrite bytes_in_app. unfold bytes_in at 2. cbn [map snd concat]. rewrite app_nil_r, EB. split; [unfold pending at 2; rewrite BU, !app_assoc, EQ, <- !app_assoc; reflexivity|].
    intros x y S1 NN. assert (NY : y <> []) by (intros ->; cbn in NN; congruence).
    destruct (exists_last NY) as (y0 & l & ->). rewrite app_assoc in S1. apply app_inj_tail in S1. destruct S1 as [S1 _].
    rewrite app_assoc, app_length, EQ, S1, bytes_in_app, !app_length. lia.
Qed.

Lemma ahead_feed d f pre new : forall w wr bi w1 wr1 bi1 bl, ahead d f w wr pre bl -> SegmentProofs.feed sink_write (w, wr, bi) new = ((w1, wr1, bi1), Ok tt) -> ahead d f w1 wr1 pre (bl ++ new).
Proof.
  induction new as [|[r b] new IH]; intros w wr bi w1 wr1 bi1 bl A F.
  - cbn in F. injection F as <- <- <-. rewrite app_nil_r. exact A.
  - cbn [SegmentProofs.feed] in F. unfold sink_write at 1 in F. destruct (writer_write_block w wr b) as [[w0 wr0] [[]|]] eqn:W; [|discriminate F].
    change ((r, b) :: new) with ([(r, b)] ++ new). rewrite app_assoc. eapply IH; [eapply ahead_write; eassumption|exact F].
Qed.

Lemma ahead_handed {A} d fd pre bl w wr bi done last w1 wr1 bi1 (o : outcome (result A)) : ahead d fd w wr pre bl -> o <> Ret Err ->
  hands_at sink_write (w, wr, bi) done last (w1, wr1, bi1) o -> ahead d fd w1 wr1 pre (bl ++ done) /\ forall acc, hands_at collect acc done last (acc ++ done) o.
Proof.
  intros AH NE ([[wb db] bb] & F & L). destruct last as [[r b]|]; [destruct L as [_ L]; congruence|]. destruct L as [L _]. injection L as -> -> ->.
  split; [eapply ahead_feed; eassumption|]. intros acc. exists (acc ++ done). rewrite collect_feed. auto.
Qed.

Lemma ahead_step d p fd pre bl w sg cw op w1 sg1 cw1 o : ahead d fd w (sg_data sg) pre bl -> md_segment_meta (sg_meta sg) <> None -> caught_step p w sg cw op = ((w1, sg1, cw1), o) -> o <> Ret Err ->
  exists new, (forall acc, alone_step p (cw_encoder cw) op acc = ((cw_encoder cw1, acc ++ new), o)) /\ ahead d fd w1 (sg_data sg1) pre (bl ++ new) /\ md_segment_meta (sg_meta sg1) <> None.
Proof.
  intros AH HM H NR. destruct op as [b|]; cbn [caught_step] in H.
  - unfold column_write_at in H. cbn zeta in H. destruct (bin_encode_sinkless p (cw_encoder cw) b _ sink_write (w, sg_data sg, sg_block_index sg)) as (done & last & HH & G). cbv beta in HH, G.
    destruct (bin_encode_at sink_write p (cw_encoder cw) b _) as [[e [[wa dt] bi]] r] eqn:E. cbn [fst snd] in *. injection H as <- <- <- ->.
    destruct (ahead_handed d fd pre bl _ _ _ _ _ _ _ _ _ AH NR HH) as (A1 & C). exists done. cbn [cw_encoder sg_data sg_meta alone_step]. split; [|split; [exact A1|exact HM]]. intros acc. exact (G _ collect acc _ (C acc)).
  - unfold column_close_at in H. cbn zeta in H. destruct (bin_flush_sinkless p (cw_encoder cw) _ sink_write (w, sg_data sg, sg_block_index sg)) as (done & last & HH & G). cbv beta in HH, G.
    destruct (bin_flush_at sink_write p (cw_encoder cw) _) as [[e [[wa dt] bi]] r] eqn:E. cbn [fst snd] in *.
    assert (NR' : r <> Ret Err) by (intros ->; cbn [pure] in H; congruence).
    destruct (ahead_handed d fd pre bl _ _ _ _ _ _ _ _ _ AH NR' HH) as (A1 & C).
    assert (AL : forall acc, bin_flush_at collect p (cw_encoder cw) acc = ((e, acc ++ done), r)) by (intros acc; exact (G _ collect acc _ (C acc))).
    exists done. cbn [alone_step]. destruct r as [[lay|]|j|]; cbn [pure] in H; [|congruence| |].
    + destruct (md_segment_meta (sg_meta sg)); [|congruence]. injection H as <- <- <- <-. cbn [cw_encoder sg_data sg_meta md_segment_meta]. split; [intros acc; rewrite AL; reflexivity|]. split; [exact A1|discriminate].
    + injection H as <- <- <- <-. cbn [cw_encoder sg_data sg_meta]. split; [intros acc; rewrite AL; reflexivity|split; [exact A1|exact HM]].
    + injection H as <- <- <- <-. cbn [cw_encoder sg_data sg_meta]. split; [intros acc; rewrite AL; reflexivity|split; [exact A1|exact HM]].
Qed.

Lemma ahead_run d p fd pre ops : forall bl w sg cw w1 sg1 outs, ahead d fd w (sg_data sg) pre bl -> md_segment_meta (sg_meta sg) <> None -> caught_run p w sg cw ops = (w1, sg1, outs) -> none_reported outs ->
  ahead d fd w1 (sg_data sg1) pre (bl ++ fst (alone_run p (cw_encoder cw) ops [])) /\ md_segment_meta (sg_meta sg1) <> None.
Proof.
  induction ops as [|op ops IH]; intros bl w sg cw w1 sg1 outs AH HM H A; cbn [caught_run] in H.
  - injection H as <- <- <-. cbn [alone_run fst]. rewrite app_nil_r. auto.
  - cbn zeta in H. destruct (caught_step p w sg cw op) as [[[w0 sg0] cw0] o] eqn:E. cbn [fst snd] in H. destruct (caught_run p w0 sg0 cw0 ops) as [[w2 sg2] more] eqn:R. injection H as <- <- <-.
    apply Forall_cons_iff in A. destruct A as [A0 A]. destruct (ahead_step d p fd pre bl _ _ _ _ _ _ _ _ AH HM E A0) as (new & ST & AH0 & HM0).
    pose proof (IH _ _ _ _ _ _ _ AH0 HM0 R A) as AH1. cbn [alone_run]. cbn zeta. rewrite (ST []). cbn [fst snd app].
    destruct (alone_more p ops (cw_encoder cw0) new) as [A1 _]. rewrite A1, app_assoc. exact AH1.
Qed.

Lemma ahead_columns d p fd pre cols : forall bl w sg w1 sg1 outs, ahead d fd w (sg_data sg) pre bl -> md_segment_meta (sg_meta sg) <> None -> caught_columns p w sg cols = (w1, sg1, outs) -> Forall none_reported outs ->
  ahead d fd w1 (sg_data sg1) pre (bl ++ blocks_of_columns p cols).
Proof.
  induction cols as [|[ci ops] cols IH]; intros bl w sg w1 sg1 outs AH HM H A; cbn [caught_columns] in H.
  - injection H as <- <- <-. unfold blocks_of_columns. cbn [map concat]. rewrite app_nil_r. exact AH.
  - destruct (new_binary_column_writer sg ci) as [sg0 [cw|]] eqn:NW.
    2:{ destruct (caught_columns p w sg0 cols) as [[w2 sg2] more]. injection H as <- <- <-. apply Forall_cons_iff in A. destruct A as [A _]. apply Forall_cons_iff in A. destruct A as [A _]. congruence. }
    destruct (open_inv _ _ _ _ NW) as (-> & _ & _ & NEW).
    destruct (caught_run p w _ cw ops) as [[w2 sg2] outs1] eqn:R. destruct (caught_columns p w2 sg2 cols) as [[w3 sg3] more] eqn:RC. injection H as <- <- <-.
    apply Forall_cons_iff in A. destruct A as [A1 A2].
    assert (AH0 : ahead d fd w (sg_data (mksegment (sg_data sg) (sg_index sg) bi_new (sg_meta sg))) pre bl) by exact AH.
    destruct (ahead_run d p fd pre _ _ _ _ _ _ _ _ AH0 HM R A1) as (AH1 & HM1). pose proof (IH _ _ _ _ _ _ AH1 HM1 RC A2) as AH2.
    assert (CA : column_alone p (ci, ops) = alone_run p (cw_encoder cw) ops []) by (unfold column_alone; cbn [fst snd]; rewrite NEW; reflexivity).
    unfold blocks_of_columns in *. cbn [map concat]. rewrite CA, app_assoc. exact AH2.
Qed.

(** Created once, at some point. *)
Definition created_at (f : path) (log : list fs_event) : Prop :=
  exists a b, log = a ++ FCreate f :: b /\ Forall (fun e => e <> FCreate f) a /\ Forall (fun e => e <> FCreate f) b.

Lemma created_at_app f a b : created_at f a -> Forall (fun e => e <> FCreate f) b -> created_at f (a ++ b).
Proof. intros (x & y & -> & F & G) H. exists x, (y ++ b). rewrite <- app_assoc. split; [reflexivity|]. split; [exact F|]. apply Forall_app. auto. Qed.

Lemma not_created d f : forall a, d f = None -> Forall (fun e => e <> FCreate f) a -> directory_after d a f = None.
Proof.
  intros a. revert d. induction a as [|e a IH]; intros d D F; [exact D|]. apply Forall_cons_iff in F. destruct F as [NC F].
  change (directory_after d (e :: a)) with (directory_after (apply_effect d e) a). apply IH; [|exact F].
  destruct e as [g|g b|g]; unfold apply_effect; [destruct (path_dec f g); [congruence|exact D]|destruct (path_dec f g); [rewrite D; reflexivity|exact D]|exact D].
Qed.

Lemma seen_before d f log rest c0 c : d f = None -> created_at f (log ++ rest) -> directory_after d log f = Some c0 -> directory_after d (log ++ rest) f = Some c -> exists more, c = c0 ++ more.
Proof.
  intros D (a & b & E & FA & FB) H0 H1.
  assert (NR : Forall (fun e => e <> FCreate f) rest).
  { symmetry in E. apply app_eq_app in E. destruct E as (l & [[E1 E2]|[E1 E2]]).
    - exfalso. subst a. apply Forall_app in FA. rewrite (not_created d f log D (proj1 FA)) in H0. discriminate H0.
    - destruct l as [|e l]; [exfalso; rewrite app_nil_r in E1; subst log; rewrite (not_created d f a D FA) in H0; discriminate H0|].
      cbn [app] in E2. injection E2 as _ ->. apply Forall_app in FB. apply FB. }
  destruct (directory_grows (directory_after d log) f rest c0 NR H0) as [more HM]. rewrite <- directory_after_app, H1 in HM. injection HM as ->. exists more. reflexivity.
Qed.

(** The data file of a new segment. *)
Lemma segment_new_ahead d w base info w1 sg : 0 < wd_max w -> is_id (si_segment_id info) -> wd_log w = [] -> segment_new w base info = (w1, Ok sg) ->
  created_at (data_path base (si_segment_id info)) (wd_log w1) /\ ahead d (data_path base (si_segment_id info)) w1 (sg_data sg) data_file_signature []
  /\ md_segment_meta (sg_meta sg) <> None.
Proof.
  intros M ID L0 NW. destruct (C49_distinct base _ _ ID ID) as (_ & _ & NE0).
  assert (NE : index_path base (si_segment_id info) <> data_path base (si_segment_id info)) by congruence. clear NE0.
  set (fd := data_path base (si_segment_id info)) in *. set (fi := index_path base (si_segment_id info)) in *. unfold segment_new in NW. fold fd fi in NW.
  destruct (writer_new w fi) as [wa [ix|]] eqn:Na; [|discriminate]. destruct (writer_new_touches d _ _ _ _ M Na) as ((la & La & Fa) & Ma & Oa & _). rewrite L0 in La. cbn [app] in La.
  destruct (writer_new wa fd) as [wb [dt|]] eqn:Nb; [|discriminate]. destruct (writer_new_touches d wa _ _ _ ltac:(lia) Nb) as (Tb & Mb & Ob & Eb & Hb & Bb).
  assert (Lb : wd_log wb = wd_log wa ++ [FCreate fd]).
  { unfold writer_new, tk_create in Nb. destruct (next_fate wa) as [fate w0] eqn:NF. destruct (next_fate_inv _ _ _ NF) as (HL & _).
    destruct fate; [discriminate Nb|]. injection Nb as <- <-. cbn [effect wd_log]. rewrite HL. reflexivity. }
  unfold write_headers in NW. cbn [sg_index sg_data sg_block_index sg_meta] in NW.
  destruct (writer_write_block wb ix index_file_signature) as [[wc ic] [[]|]] eqn:Wc; [|discriminate].
  assert (Oi : opened d fi wb ix).
  { destruct Oa as (M0 & P0 & c & H0). split; [lia|]. split; [exact P0|]. exists c. unfold holds in *. rewrite (touches_dir _ d _ _ _ Tb); [exact H0|congruence]. }
  destruct (write_touch _ _ _ _ _ _ _ _ Oi Wc) as (Xc & _).
  assert (Hc : holds d wc fd []) by (eapply holds_other; eassumption).
  destruct (writer_write_block wc dt data_file_signature) as [[we de] [[]|]] eqn:We; [|discriminate].
  assert (Od : opened d fd wc dt) by (eapply opened_other; [exact Xc|congruence|exact Ob]).
  destruct (write_touch _ _ _ _ _ _ _ _ Od We) as (Xe & _). injection NW as <- <-. cbn [sg_data sg_meta md_segment_meta]. split; [|split; [|discriminate]].
  - destruct (extends_no_create _ fd _ _ Xc) as (mc & Lc & Fc). destruct (extends_no_create _ fd _ _ Xe) as (me & Le & Fe). rewrite Le, Lc. apply created_at_app; [apply created_at_app; [|exact Fc]|exact Fe].
    rewrite Lb. exists (wd_log wa), []. split; [reflexivity|]. split; [|constructor]. rewrite La. eapply Forall_impl; [|exact Fa]. cbn. intros e E ->. cbn in E. congruence.
  - assert (AH : ahead d fd wc dt [] []).
    { destruct Od as (Mc & Pc & _). split; [exact Mc|]. split; [exact Pc|]. split; [exact Eb|]. exists []. split; [exact Hc|]. split; [unfold pending; rewrite Bb; reflexivity|].
      intros x y E NN. symmetry in E. apply app_eq_nil in E. destruct E as [_ ->]. cbn in NN. congruence. }
    destruct (ahead_write d fd _ _ _ _ 0%N _ _ _ AH We) as (M1 & P1 & E1 & c & H1 & EQ & _). split; [exact M1|]. split; [exact P1|]. split; [exact E1|]. exists c. split; [exact H1|].
    split; [rewrite EQ; cbn [app bytes_in map snd concat]; reflexivity|]. intros x y E NN. symmetry in E. apply app_eq_nil in E. destruct E as [_ ->]. cbn in NN. congruence.
Qed.

(** * The theorems *)

Lemma prefix_block (pre b post seen more : list N) : pre ++ b ++ post = seen ++ more -> length (pre ++ b) <= length seen -> exists rest, seen = pre ++ b ++ rest.
Proof.
  intros E L. exists (skipn (length (pre ++ b)) seen). rewrite app_assoc. rewrite <- (firstn_skipn (length (pre ++ b)) seen) at 1. f_equal.
  assert (F : firstn (length (pre ++ b)) (pre ++ b ++ post) = firstn (length (pre ++ b)) (seen ++ more)) by (rewrite E; reflexivity).
  rewrite app_assoc, firstn_app, firstn_all, Nat.sub_diag in F. cbn [firstn] in F. rewrite app_nil_r in F.
  rewrite firstn_app in F. replace (length (pre ++ b) - length seen) with 0 in F by lia. cbn [firstn] in F. rewrite app_nil_r in F. congruence.
Qed.

Lemma read_prefix q plan (pre b post seen more : list N) : pre ++ b ++ post = seen ++ more -> file_ok (pre ++ b ++ post) ->
  read_block q seen plan (N.of_nat (length pre)) (N.of_nat (length pre + length b)) = Ret (Ok b) \/ read_block q seen plan (N.of_nat (length pre)) (N.of_nat (length pre + length b)) = Ret Err.
Proof.
  intros E FO. unfold file_ok in FO. assert (L := f_equal (@length N) E). rewrite !app_length in L. rewrite !app_length in FO.
  destruct (C41_never_other_bytes q seen plan (N.of_nat (length pre)) (N.of_nat (length pre + length b))) as (r & -> & H).
  { unfold file_ok. lia. }
  { change u64_lim with 18446744073709551616%N. lia. }
  { change u64_lim with 18446744073709551616%N. lia. }
  destruct r as [bs|]; [|right; reflexivity]. left. destruct (H bs eq_refl) as (_ & LB & [->|(x & y & ES & LX)]).
  - cbn in LB. assert (LB0 : length b = 0) by lia. destruct b; [reflexivity|discriminate LB0].
  - assert (LX' : length x = length pre) by lia. assert (LB' : length bs = length b) by lia. clear LX LB H. subst seen. rewrite <- !app_assoc in E.
    assert (EX : x = pre) by (apply (f_equal (firstn (length pre))) in E; rewrite <- LX' in E at 2; rewrite !firstn_app, !firstn_all, !Nat.sub_diag in E; cbn [firstn] in E; rewrite !app_nil_r in E; congruence).
    subst x. apply app_inv_head in E. apply (f_equal (firstn (length b))) in E. rewrite <- LB' in E at 2. rewrite !firstn_app, !firstn_all, !Nat.sub_diag in E. cbn [firstn] in E. rewrite !app_nil_r in E. congruence.
Qed.

(** C109: columns are being written, panics are caught, no call reported an error.
    At any moment a reader sees the beginning of the data file as it is then.  What it
    reads where a block is, or is going to be, is the block or an error. *)
Theorem C109_never_other : forall d p w base info w1 sg cols w2 sg2 outs log rest seen unseen before r b after q plan,
  0 < wd_max w -> is_id (si_segment_id info) -> wd_log w = [] -> d (data_path base (si_segment_id info)) = None ->
  segment_new w base info = (w1, Ok sg) -> caught_columns p w1 sg cols = (w2, sg2, outs) -> Forall none_reported outs ->
  wd_log w2 = log ++ rest -> directory_after d log (data_path base (si_segment_id info)) = Some (seen ++ unseen) ->
  blocks_of_columns p cols = before ++ (r, b) :: after -> (N.of_nat (13 + length (concat (map snd (blocks_of_columns p cols)))) < 9223372036854775808)%N ->
  let from := N.of_nat (13 + length (concat (map snd before))) in
  read_block q seen plan from (from + N.of_nat (length b))%N = Ret (Ok b) \/ read_block q seen plan from (from + N.of_nat (length b))%N = Ret Err.
Proof.
  intros d p w base info w1 sg cols w2 sg2 outs log rest seen unseen before r b after q plan M ID L0 D0 NW R A LG DS EB SZ from.
  destruct (segment_new_ahead d w base info w1 sg M ID L0 NW) as (CR & AH & HM). set (fd := data_path base (si_segment_id info)) in *.
  pose proof (ahead_columns d p fd _ _ _ _ _ _ _ _ AH HM R A) as (_ & _ & _ & c & H & EQ & _). cbn [app] in EQ.
  destruct (caught_columns_touch d p fd _ _ _ _ _ _ (ahead_opened _ _ _ _ _ _ AH) R) as (X & _). destruct (extends_no_create _ fd _ _ X) as (m & LM & FM).
  assert (CR2 : created_at fd (log ++ rest)) by (rewrite <- LG, LM; apply created_at_app; assumption).
  unfold holds in H. rewrite LG in H. destruct (seen_before d fd log rest _ c D0 CR2 DS H) as (more & ->).
  rewrite EB in EQ, SZ. rewrite bytes_in_app in EQ. cbn [bytes_in map snd concat] in EQ.
  assert (E : (data_file_signature ++ bytes_in before) ++ b ++ bytes_in after = seen ++ unseen ++ more ++ pending (wr_file (sg_data sg2))) by (rewrite <- !app_assoc; rewrite <- !app_assoc in EQ; symmetry; exact EQ).
  assert (LP : length (data_file_signature ++ bytes_in before) = 13 + length (concat (map snd before))) by (rewrite app_length; reflexivity).
  assert (FO : file_ok ((data_file_signature ++ bytes_in before) ++ b ++ bytes_in after)).
  { unfold file_ok. rewrite map_app, concat_app in SZ. cbn [map snd concat] in SZ. rewrite !app_length in SZ. unfold bytes_in. rewrite !app_length. change (length data_file_signature) with 13. clear -SZ. lia. }
  pose proof (read_prefix q plan _ _ _ _ _ E FO) as Q. rewrite LP in Q. fold from in Q. replace (N.of_nat (13 + length (concat (map snd before)) + length b)) with (from + N.of_nat (length b))%N in Q by (unfold from; clear; lia). exact Q.
Qed.
Print Assumptions C109_never_other.

(** The piece that the background thread may be writing when the calls have returned
    may be in the file too, or a part of it. *)
Theorem C109_never_other_yet : forall d p w base info w1 sg cols w2 sg2 outs file seen unseen before r b after q plan,
  0 < wd_max w -> is_id (si_segment_id info) -> wd_log w = [] ->
  segment_new w base info = (w1, Ok sg) -> caught_columns p w1 sg cols = (w2, sg2, outs) -> Forall none_reported outs ->
  directory_after d (wd_log w2) (data_path base (si_segment_id info)) = Some file ->
  file ++ match tf_busy (wr_file (sg_data sg2)) with Some piece => piece | None => [] end = seen ++ unseen ->
  blocks_of_columns p cols = before ++ (r, b) :: after -> (N.of_nat (13 + length (concat (map snd (blocks_of_columns p cols)))) < 9223372036854775808)%N ->
  let from := N.of_nat (13 + length (concat (map snd before))) in
  read_block q seen plan from (from + N.of_nat (length b))%N = Ret (Ok b) \/ read_block q seen plan from (from + N.of_nat (length b))%N = Ret Err.
Proof.
  intros d p w base info w1 sg cols w2 sg2 outs file seen unseen before r b after q plan M ID L0 NW R A DF SE EB SZ from.
  destruct (segment_new_ahead d w base info w1 sg M ID L0 NW) as (_ & AH & HM). set (fd := data_path base (si_segment_id info)) in *.
  pose proof (ahead_columns d p fd _ _ _ _ _ _ _ _ AH HM R A) as (_ & _ & _ & c & H & EQ & _). cbn [app] in EQ. unfold holds in H. rewrite DF in H. injection H as <-.
  change (file ++ pending (wr_file (sg_data sg2)) = seen ++ unseen) in SE. rewrite SE in EQ.
  rewrite EB in EQ, SZ. rewrite bytes_in_app in EQ. cbn [bytes_in map snd concat] in EQ.
  assert (E : (data_file_signature ++ bytes_in before) ++ b ++ bytes_in after = seen ++ unseen) by (rewrite <- !app_assoc; rewrite <- ?app_assoc in EQ; symmetry; exact EQ).
  assert (LP : length (data_file_signature ++ bytes_in before) = 13 + length (concat (map snd before))) by (rewrite app_length; reflexivity).
  assert (FO : file_ok ((data_file_signature ++ bytes_in before) ++ b ++ bytes_in after)).
  { unfold file_ok. rewrite map_app, concat_app in SZ. cbn [map snd concat] in SZ. rewrite !app_length in SZ. unfold bytes_in. rewrite !app_length. change (length data_file_signature) with 13. clear -SZ. lia. }
  pose proof (read_prefix q plan _ _ _ _ _ E FO) as Q. rewrite LP in Q. fold from in Q. replace (N.of_nat (13 + length (concat (map snd before)) + length b)) with (from + N.of_nat (length b))%N in Q by (unfold from; clear; lia). exact Q.
Qed.
Print Assumptions C109_never_other_yet.

(** As soon as the calls returned, every block is read that is followed by another
    one that is not empty, without flushing or closing anything. *)
Theorem C109_all_but_last : forall d p w base info w1 sg cols w2 sg2 outs file before r b after q plan,
  0 < wd_max w -> is_id (si_segment_id info) -> wd_log w = [] ->
  segment_new w base info = (w1, Ok sg) -> caught_columns p w1 sg cols = (w2, sg2, outs) -> Forall none_reported outs ->
  directory_after d (wd_log w2) (data_path base (si_segment_id info)) = Some file ->
  blocks_of_columns p cols = before ++ (r, b) :: after -> concat (map snd after) <> [] -> file_ok file -> ~ In PFail plan ->
  let from := N.of_nat (13 + length (concat (map snd before))) in
  read_block q file plan from (from + N.of_nat (length b))%N = Ret (Ok b).
Proof.
  intros d p w base info w1 sg cols w2 sg2 outs file before r b after q plan M ID L0 NW R A DF EB NN FO NP from.
  destruct (segment_new_ahead d w base info w1 sg M ID L0 NW) as (_ & AH & HM).
  pose proof (ahead_columns d p _ _ _ _ _ _ _ _ _ AH HM R A) as (_ & _ & _ & c & H & EQ & LA). cbn [app] in EQ, LA. unfold holds in H. rewrite DF in H. injection H as <-.
  assert (LC := LA (before ++ [(r, b)]) after ltac:(rewrite EB, <- app_assoc; reflexivity) NN).
  rewrite EB in EQ. rewrite bytes_in_app in EQ, LC. cbn [bytes_in map snd concat] in EQ, LC. rewrite app_nil_r in LC.
  assert (E : (data_file_signature ++ bytes_in before) ++ b ++ bytes_in after = file ++ pending (wr_file (sg_data sg2))) by (rewrite <- !app_assoc; rewrite <- ?app_assoc in EQ; symmetry; exact EQ).
  rewrite app_assoc in LC. destruct (prefix_block _ _ _ _ _ E LC) as (rest & EF). rewrite EF in FO |- *.
  pose proof (C41_range_in_file q _ _ _ plan FO NP) as Q.
  assert (LP : length (data_file_signature ++ bytes_in before) = 13 + length (concat (map snd before))) by (rewrite app_length; reflexivity).
  rewrite LP in Q. fold from in Q. replace (N.of_nat (13 + length (concat (map snd before)) + length b)) with (from + N.of_nat (length b))%N in Q by (unfold from; clear; lia). exact Q.
Qed.
Print Assumptions C109_all_but_last.

(** The columns of [C103_witness], not closed: the second one panics.  There are four
    blocks; all but the last are read, at the beginning all reads are errors, and
    the last one is read where the file has not come to yet. *)
Definition early_run : option (list (list (outcome (result unit))) * list fs_event) :=
  match segment_new ex_world ex_base ex_info with
  | (w1, Ok sg) => let '(w2, sg2, outs) := caught_columns Debug w1 sg ex_caught in Some (outs, wd_log w2)
  | _ => None
  end.

(** Reading the four blocks when the first [n] effects have happened. *)
Definition early_reads (n : nat) : option (list (outcome (result (list N)))) :=
  match early_run with
  | Some (_, log) =>
      match directory_after (fun _ => None) (firstn n log) (data_path ex_base (si_segment_id ex_info)) with
      | Some file => Some (map (fun k => let from := N.of_nat (13 + length (concat (map snd (firstn k (blocks_of_columns Debug ex_caught))))) in
                                         read_block Debug file [] from (from + N.of_nat (length (snd (nth k (blocks_of_columns Debug ex_caught) (0%N, [])))))%N) (seq 0 4))
      | None => None
      end
  | None => None
  end.

Example C109_witness :
  match early_run with
  | Some (outs, log) => Forall none_reported outs /\ nth 2 (nth 1 outs []) (Ret Err) = Panic PAssert /\ length log = 8
  | None => False
  end
  /\ length (blocks_of_columns Debug ex_caught) = 4 /\ Forall (fun b => snd b <> []) (blocks_of_columns Debug ex_caught)
  /\ early_reads 5 = Some [Ret Err; Ret Err; Ret Err; Ret Err]
  /\ early_reads 8 = Some (map (fun b => Ret (Ok (snd b))) (firstn 3 (blocks_of_columns Debug ex_caught)) ++ [Ret Err]).
Proof.
  split; [|split; [vm_compute; reflexivity|split; [|split; vm_compute; reflexivity]]].
  - assert (X : match early_run with Some (outs, log) => outs = [[Ret (Ok tt); Ret (Ok tt)]; [Ret (Ok tt); Ret (Ok tt); Panic PAssert; Panic PAssert]; [Ret (Ok tt); Ret (Ok tt); Ret (Ok tt)]] /\ length log = 8 | None => False end)
      by (vm_compute; split; reflexivity).
    destruct early_run as [[outs log]|]; [|exact X]. destruct X as (-> & X). split; [repeat constructor; discriminate|]. split; [reflexivity|exact X].
  - apply Forall_forall. intros b I E. assert (X : Forall (fun n => n <> 0) (map (fun b => length (snd b)) (blocks_of_columns Debug ex_caught))) by (vm_compute; repeat constructor; discriminate).
    rewrite Forall_forall in X. apply (X (length (snd b))); [exact (in_map (fun b => length (snd b)) _ _ I)|rewrite E; reflexivity].
Qed.
