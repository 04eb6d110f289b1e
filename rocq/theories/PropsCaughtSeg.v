(** C103: panics in calls on columns, caught: what becomes of the segment. *)
From Verif Require Import Base Buffers Sink PrimEnc BinEnc Io SpecIo IoProofs PropsIo Metadata Proto SpecProto ProtoProofs ReadBlock BlockProofs Names PropsNames Segment SpecSegment
  SegmentProofs SegmentRunProofs PropsSegment PropsSegmentEx PropsIndexErr Cancel PropsCancel PropsCancelCol Caught.
From Coq Require Import Permutation.
Open Scope nat_scope.

(** * The calls *)

(** One call on a column, and what it leaves behind if it panics.
    src/store/segment_writer.rs:270-278, 281-328. *)
Definition caught_step (p : profile) (w : world) (sg : segment) (cw : column_writer) (op : col_op)
  : caught (world * segment * column_writer) (result unit) :=
  match op with CWrite b => column_write_at p w sg cw b | CClose => column_close_at p w sg cw end.

(** All calls on a column, going on after panics; how each of them ended.
    src/store/segment_writer.rs:270-278, 281-328. *)
Fixpoint caught_run (p : profile) (w : world) (sg : segment) (cw : column_writer) (ops : list col_op) : world * segment * list (outcome (result unit)) :=
  match ops with
  | [] => (w, sg, [])
  | op :: rest =>
      let r := caught_step p w sg cw op in
      let '(w, sg, cw) := fst r in
      let '(w, sg, more) := caught_run p w sg cw rest in (w, sg, snd r :: more)
  end.

(** Several columns, one after the other.
    src/store/segment_writer.rs:199-218, 270-328. *)
Fixpoint caught_columns (p : profile) (w : world) (sg : segment) (cols : list (column_info * list col_op)) : world * segment * list (list (outcome (result unit))) :=
  match cols with
  | [] => (w, sg, [])
  | (ci, ops) :: rest =>
      let '(w, sg, outs) := match new_binary_column_writer sg ci with
                            | (sg, Err) => (w, sg, [Ret Err])
                            | (sg, Ok cw) => caught_run p w sg cw ops
                            end in
      let '(w, sg, more) := caught_columns p w sg rest in (w, sg, outs :: more)
  end.

(** No call reported an error; it may have panicked. *)
Definition none_reported (outs : list (outcome (result unit))) : Prop := Forall (fun o => o <> Ret Err) outs.

(** * A column by itself *)

(** An encoder with a sink that takes everything, and no other columns. *)
Definition alone_step (p : profile) (e : bin_encoder) (op : col_op) (blocks : list (N * list N)) : caught (bin_encoder * list (N * list N)) (result unit) :=
  match op with
  | CWrite b => bin_encode_at collect p e b blocks
  | CClose => let r := bin_flush_at collect p e blocks in pure (fst r) (snd r) (fun res => (fst r, Ret (match res with Ok _ => Ok tt | Err => Err end)))
  end.

Fixpoint alone_run (p : profile) (e : bin_encoder) (ops : list col_op) (blocks : list (N * list N)) : list (N * list N) * list (outcome (result unit)) :=
  match ops with
  | [] => (blocks, [])
  | op :: rest =>
      let r := alone_step p e op blocks in
      let x := alone_run p (fst (fst r)) rest (snd (fst r)) in (fst x, snd r :: snd x)
  end.

(** The blocks of a column, and how the calls on it end, if there is nothing else. *)
Definition column_alone (p : profile) (c : column_info * list col_op) : list (N * list N) * list (outcome (result unit)) :=
  match new_binary_encoder (ci_encoding (fst c)) 128 (ci_nullable (fst c)) with
  | Ok e => alone_run p e (snd c) []
  | Err => ([], [Ret Err])
  end.

Definition blocks_of_columns (p : profile) (cols : list (column_info * list col_op)) : list (N * list N) := concat (map (fun c => fst (column_alone p c)) cols).

(** The closes of the column that returned. *)
Fixpoint returned_closes (ci : column_info) (ops : list col_op) (outs : list (outcome (result unit))) : list column_info :=
  match ops, outs with
  | op :: ops, o :: outs => match op, o with CClose, Ret (Ok _) => ci :: returned_closes ci ops outs | _, _ => returned_closes ci ops outs end
  | _, _ => []
  end.

Definition closed_anyway (p : profile) (cols : list (column_info * list col_op)) : list column_info :=
  concat (map (fun c => returned_closes (fst c) (snd c) (snd (column_alone p c))) cols).

(** * Calls do the same with any sink *)

(** The sink takes [done]; then [last], if any, is rejected, which is reported. *)
Definition hands_at {T A} (wr : sink_fn T) (t : T) (done : list (N * list N)) (last : option (N * list N)) (t' : T) (out : outcome (result A)) : Prop :=
  exists t1, SegmentProofs.feed wr t done = (t1, Ok tt)
    /\ match last with None => t' = t1 /\ out <> Ret Err | Some (r, b) => wr t1 r b = (t', Err) /\ out = Ret Err end.

Definition sinkless {E A} (run : forall T, sink_fn T -> T -> caught (E * T) (result A)) : Prop :=
  forall T (wr : sink_fn T) t, exists done last, hands_at wr t done last (snd (fst (run T wr t))) (snd (run T wr t))
    /\ forall U (wu : sink_fn U) u u', hands_at wu u done last u' (snd (run T wr t)) -> run U wu u = ((fst (fst (run T wr t)), u'), snd (run T wr t)).

Lemma sinkless_ends {E A} (e : E) (o : outcome (result A)) : o <> Ret Err -> sinkless (fun T wr t => ((e, t), o)).
Proof.
  intros NE T wr t. exists [], None. cbn [fst snd]. split; [exists t; auto|]. intros U wu u u' (u1 & F & -> & _). injection F as <-. reflexivity.
Qed.

Lemma sinkless_pure {E A B} (e : E) (m : outcome B) (k : B -> forall T, sink_fn T -> T -> caught (E * T) (result A)) :
  (forall b, sinkless (k b)) -> sinkless (fun T wr t => pure (e, t) m (fun b => k b T wr t)).
Proof. intros K. destruct m as [b|j|]; cbn [pure]; [apply K|apply sinkless_ends; discriminate..]. Qed.

Lemma sinkless_write {E A} (e : E) r b (a : A) : sinkless (fun T wr t => let w := wr t r b in ((e, fst w), Ret (match snd w with Ok _ => Ok a | Err => Err end))).
Proof.
  intros T wr t. cbn zeta. destruct (wr t r b) as [t1 [[]|]] eqn:W; cbn [fst snd].
  - exists [(r, b)], None. split; [exists t1; cbn [SegmentProofs.feed]; rewrite W; split; [reflexivity|split; [reflexivity|discriminate]]|].
    intros U wu u u' (u1 & F & -> & _). cbn [SegmentProofs.feed] in F. destruct (wu u r b) as [u2 [[]|]]; [injection F as ->; reflexivity|discriminate F].
  - exists [], (Some (r, b)). split; [exists t; auto|]. intros U wu u u' (u1 & F & W' & _). injection F as <-. rewrite W'. reflexivity.
Qed.

Lemma sinkless_then {E F A B} (f : forall T, sink_fn T -> T -> caught (E * T) (result A)) (g : E -> F) (k : E -> A -> forall T, sink_fn T -> T -> caught (F * T) (result B)) :
  sinkless f -> (forall e a, sinkless (k e a)) ->
  sinkless (fun T wr t => let w := f T wr t in pure (g (fst (fst w)), snd (fst w)) (snd w) (fun res =>
    match res with Ok a => k (fst (fst w)) a T wr (snd (fst w)) | Err => ((g (fst (fst w)), snd (fst w)), Ret Err) end)).
Proof.
  intros SF SK T wr t. cbn zeta. destruct (SF T wr t) as (done & last & (t1 & FD & L) & G). destruct (f T wr t) as [[e t'] o] eqn:EF. cbn [fst snd] in *.
  destruct o as [[a|]|j|]; cbn [pure].
  - destruct last as [[r b]|]; [destruct L as [_ L]; discriminate L|]. destruct L as [-> _].
    destruct (SK e a T wr t1) as (done2 & last2 & (t2 & FD2 & L2) & G2). exists (done ++ done2), last2. split.
    + exists t2. rewrite feed_app, FD. auto.
    + intros U wu u u' (u1 & FU & LU). rewrite feed_app in FU. destruct (SegmentProofs.feed wu u done) as [u2 [[]|]] eqn:FU1; [|discriminate FU].
      rewrite (G U wu u u2); [|exists u2; split; [exact FU1|]; split; [reflexivity|discriminate]]. cbn [fst snd pure]. apply G2. exists u1. auto.
  - exists done, last. cbn [fst snd]. split; [exists t1; split; [exact FD|]; destruct last as [[r b]|]; [split; [apply L|reflexivity]|destruct L as [_ L]; congruence]|].
    intros U wu u u' (u1 & FU & LU). rewrite (G U wu u u'); [reflexivity|]. exists u1. split; [exact FU|]. destruct last as [[r b]|]; [split; [apply LU|reflexivity]|destruct LU as [_ LU]; congruence].
  - exists done, last. cbn [fst snd]. destruct last as [[r b]|]; [destruct L as [_ L]; discriminate L|]. split; [exists t1; split; [exact FD|]; split; [apply L|discriminate]|].
    intros U wu u u' (u1 & FU & LU & _). rewrite (G U wu u u'); [reflexivity|]. exists u1. split; [exact FU|]. split; [exact LU|discriminate].
  - exists done, last. cbn [fst snd]. destruct last as [[r b]|]; [destruct L as [_ L]; discriminate L|]. split; [exists t1; split; [exact FD|]; split; [apply L|discriminate]|].
    intros U wu u u' (u1 & FU & LU & _). rewrite (G U wu u u'); [reflexivity|]. exists u1. split; [exact FU|]. split; [exact LU|discriminate].
Qed.

Lemma sinkless_ext {E A} (f g : forall T, sink_fn T -> T -> caught (E * T) (result A)) : (forall T wr t, f T wr t = g T wr t) -> sinkless f -> sinkless g.
Proof. intros X S1 T wr t. rewrite <- X. destruct (S1 T wr t) as (done & last & HH & G). exists done, last. split; [exact HH|]. intros U wu u u' H. rewrite <- X. apply G, H. Qed.

Lemma then_same {E T A B} (w : caught (E * T) (result A)) (k : E -> A -> T -> caught (E * T) (result B)) :
  pure (fst (fst w), snd (fst w)) (snd w) (fun res => match res with Ok a => k (fst (fst w)) a (snd (fst w)) | Err => ((fst (fst w), snd (fst w)), Ret Err) end)
  = pure (fst w) (snd w) (fun res => match res with Ok a => k (fst (fst w)) a (snd (fst w)) | Err => (fst w, Ret Err) end).
Proof. destruct w as [[e t] [[a|]|j|]]; reflexivity. Qed.

Section Encoders.
Context (p : profile).

Lemma be_write_sinkless e buf c pos : sinkless (fun T wr t => be_write_at wr p e buf c pos t).
Proof.
  unfold be_write_at. destruct (encode_binary_buffer p buf c pos (be_bitmap e)) as [[[enc rle] [n lv]]|j|]; cbn [pure]; [|apply sinkless_ends; discriminate..].
  destruct (be_add_rows (be_rows e) n) as [rows|j|]; cbn [pure]; [|apply sinkless_ends; discriminate..].
  destruct (sub32 p rows 1) as [id|j|]; cbn [pure]; [|apply sinkless_ends; discriminate..]. apply sinkless_write.
Qed.

Lemma be_write_remaining_sinkless e : sinkless (fun T wr t => be_write_remaining_at wr p e t).
Proof.
  unfold be_write_remaining_at. cbn zeta. destruct (idx _ _) as [o|j|]; cbn [pure]; [|apply sinkless_ends; discriminate..]. apply be_write_sinkless.
Qed.

Lemma be_loop_sinkless buffer fuel : forall e pos vpos, sinkless (fun T wr t => be_loop_at wr p fuel e buffer pos vpos t).
Proof.
  induction fuel as [|fuel IH]; intros e pos vpos; cbn [be_loop_at]; [apply sinkless_ends; discriminate|].
  destruct (pos <? length (bb_offsets buffer)); [|apply sinkless_ends; discriminate].
  destruct (be_chunk p buffer pos (be_min e)) as [c|j|]; cbn [pure]; [|apply sinkless_ends; discriminate..]. cbn zeta. destruct (bc_size c <? be_min e)%N.
  - destruct (snd (bb_append_from_at _ _ _ _ _ _)); cbn [pure]; apply sinkless_ends; discriminate.
  - eapply sinkless_ext; [intros T wr t; apply (then_same (be_write_at wr p e buffer c vpos t) (fun e1 lv t1 => be_loop_at wr p fuel e1 buffer (bc_end c) lv t1))|].
    apply (sinkless_then (fun T wr t => be_write_at wr p e buffer c vpos t) (fun e => e) (fun e1 lv T wr t1 => be_loop_at wr p fuel e1 buffer (bc_end c) lv t1)); [apply be_write_sinkless|].
    intros e1 lv. apply IH.
Qed.

Lemma be_encode_sinkless fuel e buffer : sinkless (fun T wr t => be_encode_at wr p fuel e buffer t).
Proof.
  unfold be_encode_at. destruct (0 <? bb_len (be_remaining e)); [|apply be_loop_sinkless]. cbn zeta.
  destruct (sub64 p _ _) as [want|j|]; cbn [pure]; [|apply sinkless_ends; discriminate..].
  destruct (be_chunk p buffer 0 want) as [c|j|]; cbn [pure]; [|apply sinkless_ends; discriminate..].
  set (r := bb_append_from_at p (be_remaining e) buffer (bc_start c) (bc_end c) 0). set (e1 := be_set_remaining e (fst r)).
  destruct (snd r) as [vp|j|]; cbn [pure]; [|apply sinkless_ends; discriminate..]. destruct (_ <? be_min e1)%N; [apply sinkless_ends; discriminate|].
  set (k := fun (e2 : bin_enc) (_ : nat) T (wr : sink_fn T) (t : T) => be_loop_at wr p fuel (be_set_remaining e2 (bb_clear (be_remaining e2))) buffer (bc_end c) vp t).
  eapply sinkless_ext; [intros T wr t; apply (then_same (be_write_remaining_at wr p e1 t) (fun e2 lv t1 => k e2 lv T wr t1))|].
  apply (sinkless_then (fun T wr t => be_write_remaining_at wr p e1 t) (fun e => e) k); [apply be_write_remaining_sinkless|].
  intros e2 lv. apply be_loop_sinkless.
Qed.

Lemma be_flush_sinkless e : sinkless (fun T wr t => be_flush_at wr p e t).
Proof.
  unfold be_flush_at. destruct (0 <? bb_len (be_remaining e)); [|apply sinkless_ends; discriminate]. cbn zeta.
  eapply sinkless_ext; [|apply (sinkless_then (fun T wr t => be_write_remaining_at wr p e t) (fun e => e) (fun e1 _ T wr t => ((e1, t), Ret (Ok tt)))); [apply be_write_remaining_sinkless|intros e1 lv; apply sinkless_ends; discriminate]].
  intros T wr t. cbv beta zeta. destruct (be_write_remaining_at wr p e t) as [[e1 t1] [[lv|]|j|]]; reflexivity.
Qed.

Lemma bin_encode_sinkless e buffer : sinkless (fun T wr t => bin_encode_at wr p e buffer t).
Proof.
  destruct e as [e|]; unfold bin_encode_at.
  - eapply sinkless_ext; [|apply (sinkless_then (fun T wr t => be_encode_at wr p (length (bb_offsets buffer)) e buffer t) RawEnc (fun e1 _ T wr t => ((RawEnc e1, t), Ret (Ok tt))));
      [apply be_encode_sinkless|intros e1 []; apply sinkless_ends; discriminate]].
    intros T wr t. cbv beta zeta. destruct (be_encode_at wr p _ e buffer t) as [[e1 t1] [[[]|]|j|]]; reflexivity.
  - eapply sinkless_ext; [|apply (sinkless_write SnappyEnc 43243%N snappy_data tt)]. intros T wr t. cbv beta zeta. destruct (wr t 43243%N snappy_data) as [t1 [[]|]]; reflexivity.
Qed.

Lemma bin_flush_sinkless e : sinkless (fun T wr t => bin_flush_at wr p e t).
Proof.
  destruct e as [e|]; unfold bin_flush_at; [|apply sinkless_ends; discriminate].
  eapply sinkless_ext; [|apply (sinkless_then (fun T wr t => be_flush_at wr p e t) RawEnc (fun e1 _ T wr t => ((RawEnc e1, t), Ret (Ok EPlain))));
    [apply be_flush_sinkless|intros e1 []; apply sinkless_ends; discriminate]].
  intros T wr t. cbv beta zeta. destruct (be_flush_at wr p e t) as [[e1 t1] [[[]|]|j|]]; reflexivity.
Qed.
End Encoders.

(** * The segment *)

Lemma collect_feed bl : forall acc, SegmentProofs.feed collect acc bl = (acc ++ bl, Ok tt).
Proof.
  induction bl as [|[r b] bl IH]; intros acc; cbn [SegmentProofs.feed]; [rewrite app_nil_r; reflexivity|]. unfold collect at 1. rewrite IH, <- app_assoc. reflexivity.
Qed.

(** With the sink of a segment, if no error is reported. *)
Lemma handed {A} d fd w wr bi done last w1 wr1 bi1 (o : outcome (result A)) data : sound d fd w wr data -> o <> Ret Err ->
  hands_at sink_write (w, wr, bi) done last (w1, wr1, bi1) o ->
  last = None /\ extends fd w w1 /\ sound d fd w1 wr1 (data ++ bytes_in done) /\ wr_pos wr1 = (wr_pos wr + N.of_nat (length (bytes_in done)))%N
  /\ bi1 = mkbi (bi_offset bi ++ ends (wr_pos wr) done) (bi_row_id bi ++ map fst done)
  /\ forall acc, hands_at collect acc done None (acc ++ done) o.
Proof.
  intros SD NE ([[wb db] bb] & F & L). destruct last as [[r b]|]; [destruct L as [_ L]; congruence|]. destruct L as [L _]. injection L as -> -> ->.
  split; [reflexivity|]. destruct (feed_sink d fd _ _ _ _ _ _ _ _ F SD) as (X & SD1 & PD1 & B1). split; [exact X|]. split; [exact SD1|]. split; [exact PD1|]. split; [exact B1|].
  intros acc. exists (acc ++ done). rewrite collect_feed. auto.
Qed.

Lemma caught_step_ok d p fd fi info w sg cw op w1 sg1 cw1 o data index closed : fd <> fi ->
  sound d fd w (sg_data sg) data -> sound d fi w (sg_index sg) index -> meta_ok info closed (sg_meta sg) -> enc_ok cw ->
  caught_step p w sg cw op = ((w1, sg1, cw1), o) -> o <> Ret Err ->
  exists bl, (forall acc, alone_step p (cw_encoder cw) op acc = ((cw_encoder cw1, acc ++ bl), o))
    /\ sound d fd w1 (sg_data sg1) (data ++ bytes_in bl) /\ wr_pos (sg_data sg1) = (wr_pos (sg_data sg) + N.of_nat (length (bytes_in bl)))%N
    /\ sg_block_index sg1 = mkbi (bi_offset (sg_block_index sg) ++ ends (wr_pos (sg_data sg)) bl) (bi_row_id (sg_block_index sg) ++ map fst bl)
    /\ sound d fi w1 (sg_index sg1) index /\ sg_index sg1 = sg_index sg
    /\ meta_ok info (closed ++ returned_closes (cw_info cw) [op] [o]) (sg_meta sg1) /\ enc_ok cw1 /\ cw_info cw1 = cw_info cw.
Proof.
  intros NE SD SI M EO H NR. destruct op as [b|]; cbn [caught_step] in H.
  - unfold column_write_at in H. cbn zeta in H. destruct (bin_encode_sinkless p (cw_encoder cw) b _ sink_write (w, sg_data sg, sg_block_index sg)) as (done & last & HH & G). cbv beta in HH, G.
    assert (LE : layout_of_enc (fst (fst (bin_encode_at sink_write p (cw_encoder cw) b (w, sg_data sg, sg_block_index sg)))) = layout_of_enc (cw_encoder cw)) by (destruct (cw_encoder cw); reflexivity).
    destruct (bin_encode_at sink_write p (cw_encoder cw) b _) as [[e [[wa dt] bi]] r] eqn:E. cbn [fst snd] in *. injection H as <- <- <- ->.
    destruct (handed d fd _ _ _ _ _ _ _ _ _ _ SD NR HH) as (-> & X & SD1 & P1 & B1 & C). exists done. cbn [sg_data sg_index sg_block_index sg_meta cw_info cw_encoder alone_step].
    split; [intros acc; exact (G _ collect acc _ (C acc))|]. split; [exact SD1|]. split; [exact P1|]. split; [exact B1|]. split; [eapply sound_other; eassumption|]. split; [reflexivity|].
    cbn [returned_closes]. rewrite app_nil_r. split; [exact M|]. split; [unfold enc_ok in *; cbn [cw_info cw_encoder]; congruence|reflexivity].
  - unfold column_close_at in H. cbn zeta in H. destruct (bin_flush_sinkless p (cw_encoder cw) _ sink_write (w, sg_data sg, sg_block_index sg)) as (done & last & HH & G). cbv beta in HH, G.
    assert (LE : layout_of_enc (fst (fst (bin_flush_at sink_write p (cw_encoder cw) (w, sg_data sg, sg_block_index sg)))) = layout_of_enc (cw_encoder cw)
                 /\ forall lay, snd (bin_flush_at sink_write p (cw_encoder cw) (w, sg_data sg, sg_block_index sg)) = Ret (Ok lay) -> lay = layout_of_enc (cw_encoder cw)).
    { destruct (cw_encoder cw) as [e|]; cbn [bin_flush_at fst snd]; [|split; [reflexivity|intros lay [= <-]; reflexivity]].
      destruct (snd (be_flush_at sink_write p e _)) as [[[]|]|j|]; cbn [pure fst snd]; (split; [reflexivity|]); intros lay L; try discriminate L. injection L as <-. reflexivity. }
    destruct (bin_flush_at sink_write p (cw_encoder cw) _) as [[e [[wa dt] bi]] r] eqn:E. cbn [fst snd] in *. destruct LE as [LE LL].
    assert (NR' : r <> Ret Err) by (intros ->; cbn [pure] in H; congruence).
    destruct (handed d fd _ _ _ _ _ _ _ _ _ _ SD NR' HH) as (-> & X & SD1 & P1 & B1 & C).
    assert (AL : forall acc, bin_flush_at collect p (cw_encoder cw) acc = ((e, acc ++ done), r)) by (intros acc; exact (G _ collect acc _ (C acc))).
    assert (EO' : enc_ok (mkcw (cw_info cw) e)) by (unfold enc_ok in *; cbn [cw_info cw_encoder]; congruence).
    destruct r as [[lay|]|j|]; cbn [pure] in H; [|congruence| |].
    + destruct M as (cols & lays & EM & DC & DL). rewrite EM in H. cbn [md_segment_meta md_columns_layout] in H. injection H as <- <- <- <-.
      exists done. cbn [sg_data sg_index sg_block_index sg_meta cw_info cw_encoder alone_step]. split; [intros acc; rewrite AL; reflexivity|]. split; [exact SD1|]. split; [exact P1|]. split; [exact B1|].
      split; [eapply sound_other; eassumption|]. split; [reflexivity|]. cbn [returned_closes]. split; [|split; [exact EO'|reflexivity]].
      eexists _, _. split; [reflexivity|]. split; [apply describes_insert, DC|].
      unfold bi_flush. rewrite (LL lay eq_refl). unfold enc_ok in EO. rewrite EO. apply (describes_insert layout_of closed lays (cw_info cw) DL).
    + injection H as <- <- <- <-. exists done. cbn [sg_data sg_index sg_block_index sg_meta cw_info cw_encoder alone_step]. split; [intros acc; rewrite AL; reflexivity|]. split; [exact SD1|]. split; [exact P1|]. split; [exact B1|].
      split; [eapply sound_other; eassumption|]. split; [reflexivity|]. cbn [returned_closes]. rewrite app_nil_r. auto.
    + injection H as <- <- <- <-. exists done. cbn [sg_data sg_index sg_block_index sg_meta cw_info cw_encoder alone_step]. split; [intros acc; rewrite AL; reflexivity|]. split; [exact SD1|]. split; [exact P1|]. split; [exact B1|].
      split; [eapply sound_other; eassumption|]. split; [reflexivity|]. cbn [returned_closes]. rewrite app_nil_r. auto.
Qed.

Lemma alone_more p ops : forall e acc, fst (alone_run p e ops acc) = acc ++ fst (alone_run p e ops []) /\ snd (alone_run p e ops acc) = snd (alone_run p e ops []).
Proof.
  assert (ST : forall e op, exists e1 bl o, forall acc, alone_step p e op acc = ((e1, acc ++ bl), o)).
  { assert (K : forall A (run : forall T, sink_fn T -> T -> caught (bin_encoder * T) (result A)), sinkless run -> exists e1 bl o, forall acc, run _ collect acc = ((e1, acc ++ bl), o)).
    { intros A run SL. destruct (SL _ collect []) as (done & last & (t1 & F & L) & G). exists (fst (fst (run _ collect []))), done, (snd (run _ collect [])). intros acc. apply G.
      exists (acc ++ done). rewrite collect_feed. split; [reflexivity|]. destruct last as [[r b]|]; [destruct L as [L _]; discriminate L|]. split; [reflexivity|apply L]. }
    intros e [b|]; cbn [alone_step].
    - apply (K _ (fun T wr t => bin_encode_at wr p e b t)), bin_encode_sinkless.
    - destruct (K _ (fun T wr t => bin_flush_at wr p e t) (bin_flush_sinkless p e)) as (e1 & bl & o & H). cbv beta in H. exists e1, bl.
      exists (match o with Ret (Ok _) => Ret (Ok tt) | Ret Err => Ret Err | Panic j => Panic j | NoFuel => NoFuel end). intros acc. rewrite H. destruct o as [[lay|]|j|]; reflexivity. }
  induction ops as [|op ops IH]; intros e acc; cbn [alone_run fst snd]; [rewrite app_nil_r; auto|]. destruct (ST e op) as (e1 & bl & o & H). cbn zeta. rewrite !H. cbn [fst snd app].
  destruct (IH e1 (acc ++ bl)) as [A1 A2]. destruct (IH e1 bl) as [B1 B2]. rewrite A1, A2, B1, B2, app_assoc. auto.
Qed.

Lemma caught_run_ok d p fd fi info : fd <> fi -> forall ops w sg cw w1 sg1 outs data index closed,
  sound d fd w (sg_data sg) data -> sound d fi w (sg_index sg) index -> meta_ok info closed (sg_meta sg) -> enc_ok cw ->
  caught_run p w sg cw ops = (w1, sg1, outs) -> none_reported outs ->
  let bl := fst (alone_run p (cw_encoder cw) ops []) in
  outs = snd (alone_run p (cw_encoder cw) ops [])
  /\ sound d fd w1 (sg_data sg1) (data ++ bytes_in bl) /\ wr_pos (sg_data sg1) = (wr_pos (sg_data sg) + N.of_nat (length (bytes_in bl)))%N
  /\ sg_block_index sg1 = mkbi (bi_offset (sg_block_index sg) ++ ends (wr_pos (sg_data sg)) bl) (bi_row_id (sg_block_index sg) ++ map fst bl)
  /\ sound d fi w1 (sg_index sg1) index /\ sg_index sg1 = sg_index sg
  /\ meta_ok info (closed ++ returned_closes (cw_info cw) ops outs) (sg_meta sg1).
Proof.
  intros NE. induction ops as [|op ops IH]; intros w sg cw w1 sg1 outs data index closed SD SI M EO H A; cbn [caught_run] in H.
  - injection H as <- <- <-. cbn [alone_run fst snd bytes_in map concat ends length]. rewrite !app_nil_r, N.add_0_r. cbn [returned_closes]. rewrite ?app_nil_r. split; [reflexivity|]. split; [exact SD|]. split; [reflexivity|]. split; [destruct (sg_block_index sg); reflexivity|]. auto.
  - cbn zeta in H. destruct (caught_step p w sg cw op) as [[[w0 sg0] cw0] o] eqn:E. cbn [fst snd] in H. destruct (caught_run p w0 sg0 cw0 ops) as [[w2 sg2] more] eqn:R. injection H as <- <- <-.
    apply Forall_cons_iff in A. destruct A as [A0 A].
    destruct (caught_step_ok d p fd fi info _ _ _ _ _ _ _ _ _ _ _ NE SD SI M EO E A0) as (bl & ST & SD0 & P0 & B0 & SI0 & EI & M0 & EO0 & CI).
    destruct (IH _ _ _ _ _ _ _ _ _ SD0 SI0 M0 EO0 R A) as (O1 & SD1 & P1 & B1 & SI1 & EI1 & M1). cbn [alone_run]. cbn zeta. rewrite !(ST []). cbn [fst snd app].
    destruct (alone_more p ops (cw_encoder cw0) bl) as [A1 A2]. rewrite A1, A2. split; [f_equal; exact O1|]. rewrite bytes_in_app, app_assoc. split; [exact SD1|].
    split; [rewrite P1, P0, app_length; lia|]. split; [rewrite B1, B0; cbn [bi_offset bi_row_id]; rewrite ends_app, map_app, !app_assoc, P0; reflexivity|].
    split; [exact SI1|]. split; [congruence|]. rewrite CI, <- app_assoc in M1.
    replace (returned_closes (cw_info cw) (op :: ops) (o :: more)) with (returned_closes (cw_info cw) [op] [o] ++ returned_closes (cw_info cw) ops more); [exact M1|].
    cbn [returned_closes]. destruct op, o as [[[]|]|j|]; reflexivity.
Qed.

Lemma caught_columns_ok d p fd fi info : fd <> fi -> forall cols w sg w1 sg1 outs data index closed,
  sound d fd w (sg_data sg) data -> sound d fi w (sg_index sg) index -> meta_ok info closed (sg_meta sg) ->
  caught_columns p w sg cols = (w1, sg1, outs) -> Forall none_reported outs ->
  outs = map (fun c => snd (column_alone p c)) cols
  /\ sound d fd w1 (sg_data sg1) (data ++ bytes_in (blocks_of_columns p cols))
  /\ sound d fi w1 (sg_index sg1) index /\ sg_index sg1 = sg_index sg
  /\ meta_ok info (closed ++ closed_anyway p cols) (sg_meta sg1)
  /\ forall before c, cols = before ++ [c] ->
     sg_block_index sg1 = mkbi (ends (wr_pos (sg_data sg) + N.of_nat (length (bytes_in (blocks_of_columns p before)))) (fst (column_alone p c))) (map fst (fst (column_alone p c))).
Proof.
  intros NE. induction cols as [|[ci ops] cols IH]; intros w sg w1 sg1 outs data index closed SD SI M H A; cbn [caught_columns] in H.
  - injection H as <- <- <-. unfold blocks_of_columns, closed_anyway. cbn [map concat bytes_in]. rewrite !app_nil_r. split; [reflexivity|]. split; [exact SD|]. split; [exact SI|]. split; [reflexivity|]. split; [exact M|].
    intros before c E. destruct before; discriminate E.
  - destruct (new_binary_column_writer sg ci) as [sg0 [cw|]] eqn:NW.
    2:{ destruct (caught_columns p w sg0 cols) as [[w2 sg2] more]. injection H as <- <- <-. apply Forall_cons_iff in A. destruct A as [A _]. apply Forall_cons_iff in A. destruct A as [A _]. congruence. }
    destruct (open_inv _ _ _ _ NW) as (-> & CI & EO & NEW).
    destruct (caught_run p w _ cw ops) as [[w2 sg2] outs1] eqn:R. destruct (caught_columns p w2 sg2 cols) as [[w3 sg3] more] eqn:RC. injection H as <- <- <-.
    apply Forall_cons_iff in A. destruct A as [A1 A2].
    destruct (caught_run_ok d p fd fi info NE _ _ (mksegment (sg_data sg) (sg_index sg) bi_new (sg_meta sg)) _ _ _ _ _ _ _ SD SI M EO R A1) as (O1 & SD2 & P2 & B2 & SI2 & EI & M2).
    cbn [sg_data sg_index sg_block_index sg_meta bi_new bi_row_id bi_offset app] in *.
    assert (CA : column_alone p (ci, ops) = alone_run p (cw_encoder cw) ops []) by (unfold column_alone; cbn [fst snd]; rewrite NEW; reflexivity).
    destruct (IH _ _ _ _ _ _ _ _ SD2 SI2 M2 RC A2) as (O3 & SD3 & SI3 & EI3 & M3 & B3).
    unfold blocks_of_columns, closed_anyway in *. cbn [map concat fst snd]. rewrite !CA, <- O1, bytes_in_app, !app_assoc.
    split; [f_equal; exact O3|]. split; [exact SD3|]. split; [exact SI3|]. split; [congruence|]. split; [rewrite <- CI; exact M3|].
    intros before c E. destruct before as [|b0 before]; injection E as E1 E2.
    + subst c cols. cbn [caught_columns] in RC. injection RC as <- <- <-. rewrite CA. cbn [map concat bytes_in length]. rewrite N.add_0_r. exact B2.
    + subst b0. rewrite (B3 _ _ E2), P2. cbn [map concat]. rewrite CA, bytes_in_app, app_length. f_equal. f_equal. lia.
Qed.

Lemma ends_same bl : forall from, ends from bl = block_ends from bl.
Proof. induction bl as [|[r b] bl IH]; intros from; cbn [ends block_ends snd]; [reflexivity|]. rewrite IH. reflexivity. Qed.

(** * C103 *)

(** Panics in calls on columns, caught: if no call reports an error and the segment
    can be closed, every call ended as it does in a column by itself, the data file
    has the blocks each column has by itself, one column after the other, the block
    index those of the last column where they are, and the index file describes
    exactly the columns with a close that returned. *)
Theorem C103_contained : forall d p w base info w1 sg cols w2 sg2 outs it w3 sg3,
  0 < wd_max w -> is_id (si_segment_id info) -> segment_new w base info = (w1, Ok sg) ->
  caught_columns p w1 sg cols = (w2, sg2, outs) -> Forall none_reported outs ->
  (forall l, Permutation l (it_columns it l)) /\ (forall l, Permutation l (it_layouts it l)) -> segment_close w2 sg2 it = (w3, sg3, Ok tt) ->
  outs = map (fun c => snd (column_alone p c)) cols
  /\ directory_after d (wd_log w3) (data_path base (si_segment_id info))
     = Some ([77; 69; 69; 82; 75; 65; 84; 95; 68; 65; 84; 65; 49]%N ++ concat (map snd (blocks_of_columns p cols)))
  /\ (forall before c, cols = before ++ [c] ->
        bi_row_id (sg_block_index sg2) = map fst (fst (column_alone p c))
        /\ bi_offset (sg_block_index sg2) = block_ends (13 + N.of_nat (length (concat (map snd (blocks_of_columns p before))))) (fst (column_alone p c)))
  /\ exists file m, directory_after d (wd_log w3) (index_path base (si_segment_id info)) = Some file
     /\ ((N.of_nat (length file) < 18446744073709551616)%N -> read_index_file file = Some m) /\ describes_segment info (closed_anyway p cols) m.
Proof.
  intros d p w base info w1 sg cols w2 sg2 outs it w3 sg3 M ID NW R A O C. destruct (C49_distinct base _ _ ID ID) as (_ & _ & NE).
  pose proof (segment_new_ok d p _ _ _ _ _ M ID NW) as (blocks & index & B & MK & (SD & SI & PD & PI & MO)). injection B as <-.
  destruct (caught_columns_ok d p _ _ info NE cols _ _ _ _ _ _ _ _ SD SI MO R A) as (O1 & SD2 & SI2 & EI & M2 & B2).
  destruct (close_anywhere d _ _ info _ _ _ _ _ _ _ _ NE SD2 SI2 M2 O C) as (m & MO3 & DI & DD & _).
  split; [exact O1|]. split; [exact DD|]. split.
  - intros before c E. rewrite (B2 _ _ E). cbn [bi_row_id bi_offset]. rewrite PD, ends_same. split; reflexivity.
  - eexists. exists m. split; [exact DI|]. split; [|apply meta_describes, MO3]. rewrite EI, PI. intros SZ.
    replace (N.of_nat (length (index_file_signature ++ index))) with (N.of_nat (length (index_file_signature ++ index) + 0)) by (rewrite Nat.add_0_r; reflexivity).
    rewrite read_off_by; [cbn [Nat.leb skipn]; eapply meta_ok_readable, MO3|reflexivity|rewrite app_length; cbn; lia|].
    rewrite !app_length, le_length in SZ. rewrite !app_length. lia.
Qed.
Print Assumptions C103_contained.

Lemma known_back {E T A} (x : caught (E * T) A) a : snd x = Ret a -> uncaught known x = Ret (fst (fst x), snd (fst x), a).
Proof. destruct x as [[e t] o]. cbn. intros ->. reflexivity. Qed.

(** A column without a panic has the blocks the other claims about columns are
    about, whatever happened in the other columns. *)
Theorem C103_no_panic : forall p ci ops, Forall (fun o => o = Ret (Ok tt)) (snd (column_alone p (ci, ops))) ->
  column_blocks p ci ops = Ret (fst (column_alone p (ci, ops))).
Proof.
  intros p ci ops H. unfold column_alone, column_blocks in *. cbn [fst snd] in *. destruct (new_binary_encoder (ci_encoding ci) 128 (ci_nullable ci)) as [e|]; [|reflexivity].
  revert e H. generalize (@nil (N * list N)). induction ops as [|op ops IH]; intros acc e H; cbn [alone_run encoder_run fst snd] in *; [reflexivity|].
  apply Forall_cons_iff in H. destruct H as [H0 H]. destruct op as [b|]; cbn [alone_step] in *.
  - rewrite bin_encode_same, (known_back _ _ H0). cbn [bind]. apply IH, H.
  - rewrite bin_flush_same. destruct (bin_flush_at collect p e acc) as [[e1 t] [[lay|]|j|]]; cbn [fst snd pure] in *; try discriminate H0. cbn [uncaught known fst snd bind]. apply IH, H.
Qed.
Print Assumptions C103_no_panic.

(** If there are no panics at all, this is a run as in the other claims. *)
Theorem C103_not_caught : forall p w sg cw ops w1 sg1 rs, column_run p w sg cw ops = Ret (w1, sg1, rs) -> caught_run p w sg cw ops = (w1, sg1, map Ret rs).
Proof.
  intros p w sg cw ops. revert w sg cw. induction ops as [|op ops IH]; intros w sg cw w1 sg1 rs H; cbn [column_run caught_run] in *.
  - injection H as <- <- <-. reflexivity.
  - assert (E : column_step p w sg cw op = uncaught known (caught_step p w sg cw op)) by (destruct op; [apply column_write_same|apply column_close_same]).
    rewrite E in H. destruct (caught_step p w sg cw op) as [[[wa sa] ca] [res|j|]]; cbn [uncaught known fst snd bind] in H; try discriminate H. cbn zeta. cbn [fst snd].
    destruct (column_run p wa sa ca ops) as [[[wb sb] more]|j|] eqn:R; cbn [bind] in H; try discriminate H. injection H as <- <- <-. rewrite (IH _ _ _ _ _ _ R). reflexivity.
Qed.
Print Assumptions C103_not_caught.

(** Three columns.  The second one has more items than fit a block after its
    second call, so that closing it panics, every time; then the third is written. *)
Definition ex_stuck : column_info := mkcinfo [99]%N TString Raw NoIndex false.
Definition ex_caught : list (column_info * list col_op) :=
  [(ex_a, [CWrite ex_buf; CClose]);
   (ex_stuck, [CWrite (mk_bin [9]%N [0; 1]%N None); CWrite (mk_bin [] (repeat 0%N 129) None); CClose; CClose]);
   (ex_b, [CWrite ex_buf; CWrite ex_buf; CClose])].

Definition ex_caught_run : option (list (list (outcome (result unit))) * segment * world * result unit) :=
  match segment_new ex_world ex_base ex_info with
  | (w1, Ok sg) =>
      let '(w2, sg2, outs) := caught_columns Debug w1 sg ex_caught in
      let '(w3, sg3, r) := segment_close w2 sg2 ex_it in Some (outs, sg2, w3, r)
  | _ => None
  end.

Example C103_witness :
  match ex_caught_run with
  | Some (outs, sg2, w3, r) =>
      r = Ok tt /\ outs = [[Ret (Ok tt); Ret (Ok tt)]; [Ret (Ok tt); Ret (Ok tt); Panic PAssert; Panic PAssert]; [Ret (Ok tt); Ret (Ok tt); Ret (Ok tt)]]
      /\ Forall none_reported outs
      /\ map (fun c => length (fst (column_alone Debug c))) ex_caught = [2; 0; 2] /\ closed_anyway Debug ex_caught = [ex_a; ex_b]
      /\ option_map (@length N) (directory_after (fun _ => None) (wd_log w3) (data_path ex_base (si_segment_id ex_info)))
         = Some (13 + length (concat (map snd (blocks_of_columns Debug ex_caught))))
  | None => False
  end.
Proof.
  assert (X : match ex_caught_run with
    | Some (outs, sg2, w3, r) => r = Ok tt /\ outs = [[Ret (Ok tt); Ret (Ok tt)]; [Ret (Ok tt); Ret (Ok tt); Panic PAssert; Panic PAssert]; [Ret (Ok tt); Ret (Ok tt); Ret (Ok tt)]]
        /\ map (fun c => length (fst (column_alone Debug c))) ex_caught = [2; 0; 2] /\ closed_anyway Debug ex_caught = [ex_a; ex_b]
        /\ option_map (@length N) (directory_after (fun _ => None) (wd_log w3) (data_path ex_base (si_segment_id ex_info)))
           = Some (13 + length (concat (map snd (blocks_of_columns Debug ex_caught))))
    | None => False end) by (vm_compute; repeat split).
  destruct ex_caught_run as [[[[outs sg2] w3] r]|]; [|exact X]. destruct X as (-> & -> & X1 & X2 & X3). split; [reflexivity|]. split; [reflexivity|].
  split; [repeat constructor; discriminate|]. auto.
Qed.
