(** Facts about the segment writer model. *)
From Verif Require Import Base Buffers Sink PrimEnc BinEnc Io SpecIo IoProofs PropsIo Metadata Proto SpecProto ProtoProofs ReadBlock
  BlockProofs Names PropsNames Segment SpecSegment.
From Coq Require Import Permutation.
Open Scope nat_scope.

(** * Encoders and their sinks *)

Section Sinks.
Context {S : Type} (wr : sink_fn S) (p : profile).

(** Writing blocks until one fails. *)
Fixpoint feed (s : S) (blocks : list (N * list N)) : S * result unit :=
  match blocks with
  | [] => (s, Ok tt)
  | (r, b) :: rest =>
      match wr s r b with
      | (s1, Ok _) => feed s1 rest
      | (s1, Err) => (s1, Err)
      end
  end.

Lemma feed_app a b s : feed s (a ++ b) = match feed s a with (s1, Ok _) => feed s1 b | (s1, Err) => (s1, Err) end.
Proof.
  revert s. induction a as [|[r d] a IH]; intros s; cbn; [reflexivity|]. destruct (wr s r d) as [s1 [u|]]; [apply IH|reflexivity].
Qed.

Lemma be_write_feed e buf c bp s e' s' res : be_write wr p e buf c bp s = Ret (e', s', res) ->
  exists r b k r0, wr s r b = (s', r0) /\ res = match r0 with Ok _ => Ok k | Err => Err end
    /\ forall acc, be_write collect p e buf c bp acc = Ret (e', acc ++ [(r, b)], Ok k).
Proof.
  unfold be_write. intros H. destruct (encode_binary_buffer p buf c bp (be_bitmap e)) as [[[enc rle] [n lv]]|k|]; cbn [bind] in H |- *; try discriminate.
  destruct (be_add_rows (be_rows e) n) as [rows|k|]; cbn [bind] in H |- *; try discriminate.
  destruct (sub32 p rows 1) as [row_id|k|]; cbn [bind] in H |- *; try discriminate.
  destruct (wr s row_id enc) as [s1 r0] eqn:W. cbn [fst snd] in H. injection H as <- <- <-.
  exists row_id, enc, lv, r0. split; [exact W|]. split; [reflexivity|]. intros acc. reflexivity.
Qed.

Lemma be_write_back e buf c bp e' acc acc' res : be_write collect p e buf c bp acc = Ret (e', acc', res) ->
  exists r b k, res = Ok k /\ acc' = acc ++ [(r, b)]
    /\ forall s, be_write wr p e buf c bp s = Ret (e', fst (wr s r b), match snd (wr s r b) with Ok _ => Ok k | Err => Err end).
Proof.
  unfold be_write. intros H. destruct (encode_binary_buffer p buf c bp (be_bitmap e)) as [[[enc rle] [n lv]]|k'|]; cbn [bind] in H |- *; try discriminate.
  destruct (be_add_rows (be_rows e) n) as [rows|k'|]; cbn [bind] in H |- *; try discriminate.
  destruct (sub32 p rows 1) as [row_id|k'|]; cbn [bind] in H |- *; try discriminate.
  unfold collect in H. cbn [fst snd] in H. injection H as <- <- <-. exists row_id, enc, lv. repeat split.
Qed.

Lemma be_loop_feed fuel : forall e buf bpos vp s e' s' res, be_loop wr p fuel e buf bpos vp s = Ret (e', s', res) ->
  exists bl, feed s bl = (s', res) /\ (res = Ok tt -> forall acc, be_loop collect p fuel e buf bpos vp acc = Ret (e', acc ++ bl, Ok tt)).
Proof.
  induction fuel as [|fuel IH]; intros e buf bpos vp s e' s' res H; cbn [be_loop] in H |- *; [discriminate|].
  destruct (bpos <? length (bb_offsets buf)).
  2:{ injection H as <- <- <-. exists []. split; [reflexivity|]. intros _ acc. rewrite app_nil_r. reflexivity. }
  destruct (be_chunk p buf bpos (be_min e)) as [c|k|]; cbn [bind] in H |- *; try discriminate.
  destruct (bc_size c <? be_min e)%N.
  - destruct (bb_append_from p (be_remaining e) buf (bc_start c) (bc_end c) vp) as [r|k|]; cbn [bind] in H |- *; try discriminate.
    injection H as <- <- <-. exists []. split; [reflexivity|]. intros _ acc. rewrite app_nil_r. reflexivity.
  - destruct (be_write wr p e buf c vp s) as [[[e1 s1] res1]|k|] eqn:W; cbn [bind] in H; try discriminate.
    destruct (be_write_feed _ _ _ _ _ _ _ _ W) as (r & b & k & r0 & Wr & -> & C).
    destruct r0 as [u|].
    + destruct (IH _ _ _ _ _ _ _ _ H) as (bl & F & G). exists ((r, b) :: bl). cbn [feed]. rewrite Wr. split; [exact F|].
      intros E acc. rewrite C. cbn [bind]. rewrite (G E), <- app_assoc. reflexivity.
    + injection H as <- <- <-. exists [(r, b)]. cbn [feed]. rewrite Wr. split; [reflexivity|discriminate].
Qed.

Lemma be_loop_back fuel : forall e buf bpos vp acc e' acc' res, be_loop collect p fuel e buf bpos vp acc = Ret (e', acc', res) ->
  exists bl, res = Ok tt /\ acc' = acc ++ bl /\ forall s s', feed s bl = (s', Ok tt) -> be_loop wr p fuel e buf bpos vp s = Ret (e', s', Ok tt).
Proof.
  induction fuel as [|fuel IH]; intros e buf bpos vp acc e' acc' res H; cbn [be_loop] in H |- *; [discriminate|].
  destruct (bpos <? length (bb_offsets buf)).
  2:{ injection H as <- <- <-. exists []. split; [reflexivity|]. split; [rewrite app_nil_r; reflexivity|]. intros s s' F. injection F as <-. reflexivity. }
  destruct (be_chunk p buf bpos (be_min e)) as [c|k|]; cbn [bind] in H |- *; try discriminate.
  destruct (bc_size c <? be_min e)%N.
  - destruct (bb_append_from p (be_remaining e) buf (bc_start c) (bc_end c) vp) as [r|k|]; cbn [bind] in H |- *; try discriminate.
    injection H as <- <- <-. exists []. split; [reflexivity|]. split; [rewrite app_nil_r; reflexivity|]. intros s s' F. injection F as <-. reflexivity.
  - destruct (be_write collect p e buf c vp acc) as [[[e1 s1] res1]|k|] eqn:W; cbn [bind] in H; try discriminate.
    destruct (be_write_back _ _ _ _ _ _ _ _ W) as (r & b & k & -> & -> & G1).
    destruct (IH _ _ _ _ _ _ _ _ H) as (bl & E & -> & G).
    exists ((r, b) :: bl). split; [exact E|]. split; [rewrite <- app_assoc; reflexivity|].
    intros s s' F. cbn [feed] in F. rewrite G1. cbn [bind]. destruct (wr s r b) as [s2 [u|]]; [|discriminate]. cbn [fst snd]. apply G, F.
Qed.

Lemma be_write_remaining_feed e s e' s' res : be_write_remaining wr p e s = Ret (e', s', res) ->
  exists r b k r0, wr s r b = (s', r0) /\ res = match r0 with Ok _ => Ok k | Err => Err end
    /\ forall acc, be_write_remaining collect p e acc = Ret (e', acc ++ [(r, b)], Ok k).
Proof.
  unfold be_write_remaining. intros H. destruct (idx _ _) as [o|k|]; cbn [bind] in H |- *; try discriminate.
  apply be_write_feed, H.
Qed.

Lemma be_write_remaining_back e e' acc acc' res : be_write_remaining collect p e acc = Ret (e', acc', res) ->
  exists r b k, res = Ok k /\ acc' = acc ++ [(r, b)]
    /\ forall s, be_write_remaining wr p e s = Ret (e', fst (wr s r b), match snd (wr s r b) with Ok _ => Ok k | Err => Err end).
Proof.
  unfold be_write_remaining. intros H. destruct (idx _ _) as [o|k|]; cbn [bind] in H |- *; try discriminate.
  apply be_write_back, H.
Qed.

(** What an encoder hands to a sink does not depend on the sink, unless that
    fails. *)
Lemma be_encode_feed fuel e buf s e' s' res : be_encode wr p fuel e buf s = Ret (e', s', res) ->
  exists bl, feed s bl = (s', res) /\ (res = Ok tt -> forall acc, be_encode collect p fuel e buf acc = Ret (e', acc ++ bl, Ok tt)).
Proof.
  unfold be_encode. intros H. destruct (0 <? bb_len (be_remaining e)); [|apply be_loop_feed, H].
  destruct (sub64 p _ _) as [want|k|]; cbn [bind] in H |- *; try discriminate.
  destruct (be_chunk p buf 0 want) as [c|k|]; cbn [bind] in H |- *; try discriminate.
  destruct (bb_append_from p (be_remaining e) buf (bc_start c) (bc_end c) 0) as [r|k|]; cbn [bind] in H |- *; try discriminate.
  cbn zeta in H |- *. set (e1 := be_set_remaining e (fst r)) in *. clearbody e1.
  destruct (_ <? be_min e1)%N.
  - injection H as <- <- <-. exists []. split; [reflexivity|]. intros _ acc. rewrite app_nil_r. reflexivity.
  - destruct (be_write_remaining wr p e1 s) as [[[e2 s2] res2]|k|] eqn:W; cbn [bind] in H; try discriminate.
    destruct (be_write_remaining_feed _ _ _ _ _ W) as (rr & b & k & r0 & Wr & -> & C).
    destruct r0 as [u|].
    + destruct (be_loop_feed _ _ _ _ _ _ _ _ _ H) as (bl & F & G). exists ((rr, b) :: bl). cbn [feed]. rewrite Wr. split; [exact F|].
      intros E acc. rewrite C. cbn [bind]. rewrite (G E), <- app_assoc. reflexivity.
    + injection H as <- <- <-. exists [(rr, b)]. cbn [feed]. rewrite Wr. split; [reflexivity|discriminate].
Qed.

Lemma be_encode_back fuel e buf acc e' acc' res : be_encode collect p fuel e buf acc = Ret (e', acc', res) ->
  exists bl, res = Ok tt /\ acc' = acc ++ bl /\ forall s s', feed s bl = (s', Ok tt) -> be_encode wr p fuel e buf s = Ret (e', s', Ok tt).
Proof.
  unfold be_encode. intros H. destruct (0 <? bb_len (be_remaining e)); [|apply be_loop_back in H; exact H].
  destruct (sub64 p _ _) as [want|k|]; cbn [bind] in H |- *; try discriminate.
  destruct (be_chunk p buf 0 want) as [c|k|]; cbn [bind] in H |- *; try discriminate.
  destruct (bb_append_from p (be_remaining e) buf (bc_start c) (bc_end c) 0) as [r|k|]; cbn [bind] in H |- *; try discriminate.
  cbn zeta in H |- *. set (e1 := be_set_remaining e (fst r)) in *. clearbody e1.
  destruct (_ <? be_min e1)%N.
  - injection H as <- <- <-. exists []. split; [reflexivity|]. split; [rewrite app_nil_r; reflexivity|]. intros s s' F. injection F as <-. reflexivity.
  - destruct (be_write_remaining collect p e1 acc) as [[[e2 s2] res2]|k|] eqn:W; cbn [bind] in H; try discriminate.
    destruct (be_write_remaining_back _ _ _ _ _ W) as (rr & b & k & -> & -> & G1).
    destruct (be_loop_back _ _ _ _ _ _ _ _ _ H) as (bl & E & -> & G).
    exists ((rr, b) :: bl). split; [exact E|]. split; [rewrite <- app_assoc; reflexivity|].
    intros s s' F. cbn [feed] in F. rewrite G1. cbn [bind]. destruct (wr s rr b) as [s3 [u|]]; [|discriminate]. cbn [fst snd]. apply G, F.
Qed.

Lemma be_flush_feed e s e' s' res : be_flush wr p e s = Ret (e', s', res) ->
  exists bl, feed s bl = (s', res) /\ (res = Ok tt -> forall acc, be_flush collect p e acc = Ret (e', acc ++ bl, Ok tt)).
Proof.
  unfold be_flush. intros H. destruct (0 <? bb_len (be_remaining e)).
  - destruct (be_write_remaining wr p e s) as [[[e2 s2] res2]|k|] eqn:W; cbn [bind] in H; try discriminate.
    destruct (be_write_remaining_feed _ _ _ _ _ W) as (rr & b & k & r0 & Wr & -> & C). injection H as <- <- <-.
    exists [(rr, b)]. cbn [feed]. rewrite Wr. destruct r0 as [[]|]; (split; [reflexivity|]); [|discriminate].
    intros _ acc. rewrite C. reflexivity.
  - injection H as <- <- <-. exists []. split; [reflexivity|]. intros _ acc. rewrite app_nil_r. reflexivity.
Qed.

Lemma be_flush_back e acc e' acc' res : be_flush collect p e acc = Ret (e', acc', res) ->
  exists bl, res = Ok tt /\ acc' = acc ++ bl /\ forall s s', feed s bl = (s', Ok tt) -> be_flush wr p e s = Ret (e', s', Ok tt).
Proof.
  unfold be_flush. intros H. destruct (0 <? bb_len (be_remaining e)).
  - destruct (be_write_remaining collect p e acc) as [[[e2 s2] res2]|k|] eqn:W; cbn [bind] in H; try discriminate.
    destruct (be_write_remaining_back _ _ _ _ _ W) as (rr & b & k & -> & -> & G1). injection H as <- <- <-.
    exists [(rr, b)]. split; [reflexivity|]. split; [reflexivity|]. intros s s' F. cbn [feed] in F. rewrite G1. cbn [bind].
    destruct (wr s rr b) as [s3 [u|]]; [|discriminate]. injection F as ->. reflexivity.
  - injection H as <- <- <-. exists []. split; [reflexivity|]. split; [rewrite app_nil_r; reflexivity|]. intros s s' F. injection F as <-. reflexivity.
Qed.

(** The layout an encoder reports. *)
Definition layout_of_enc (e : bin_encoder) : encoder_layout := match e with RawEnc _ => EPlain | SnappyEnc => ESnappy end.

Lemma bin_encode_feed e buf s e' s' res : bin_encode wr p e buf s = Ret (e', s', res) ->
  layout_of_enc e' = layout_of_enc e
  /\ exists bl, feed s bl = (s', res) /\ (res = Ok tt -> forall acc, bin_encode collect p e buf acc = Ret (e', acc ++ bl, Ok tt)).
Proof.
  unfold bin_encode. intros H. destruct e as [e|].
  - destruct (be_encode wr p _ e buf s) as [[[e1 s1] res1]|k|] eqn:E; cbn [bind] in H; try discriminate. injection H as <- <- <-.
    split; [reflexivity|]. destruct (be_encode_feed _ _ _ _ _ _ _ E) as (bl & F & G). exists bl. split; [exact F|].
    intros K acc. rewrite (G K). reflexivity.
  - injection H as <- <- <-. split; [reflexivity|]. exists [(43243%N, snappy_data)]. cbn [feed].
    destruct (wr s 43243%N snappy_data) as [s1 [[]|]]; cbn [fst snd]; (split; [reflexivity|]); [|discriminate]. reflexivity.
Qed.

Lemma bin_encode_back e buf acc e' acc' res : bin_encode collect p e buf acc = Ret (e', acc', res) ->
  exists bl, res = Ok tt /\ acc' = acc ++ bl /\ forall s s', feed s bl = (s', Ok tt) -> bin_encode wr p e buf s = Ret (e', s', Ok tt).
Proof.
  unfold bin_encode. intros H. destruct e as [e|].
  - destruct (be_encode collect p _ e buf acc) as [[[e1 s1] res1]|k|] eqn:E; cbn [bind] in H; try discriminate. injection H as <- <- <-.
    destruct (be_encode_back _ _ _ _ _ _ _ E) as (bl & F & K & G). exists bl. split; [exact F|]. split; [exact K|].
    intros s s' X. rewrite (G _ _ X). reflexivity.
  - injection H as <- <- <-. exists [(43243%N, snappy_data)]. split; [reflexivity|]. split; [reflexivity|]. intros s s' F. cbn [feed] in F.
    destruct (wr s 43243%N snappy_data) as [s1 [[]|]]; [|discriminate]. injection F as ->. reflexivity.
Qed.

Lemma bin_flush_feed e s e' s' res : bin_flush wr p e s = Ret (e', s', res) ->
  layout_of_enc e' = layout_of_enc e
  /\ exists bl r0, feed s bl = (s', r0) /\ res = match r0 with Ok _ => Ok (layout_of_enc e) | Err => Err end
       /\ (r0 = Ok tt -> forall acc, bin_flush collect p e acc = Ret (e', acc ++ bl, res)).
Proof.
  unfold bin_flush. intros H. destruct e as [e|].
  - destruct (be_flush wr p e s) as [[[e1 s1] res1]|k|] eqn:E; cbn [bind] in H; try discriminate. injection H as <- <- <-.
    split; [reflexivity|]. destruct (be_flush_feed _ _ _ _ _ E) as (bl & F & G). exists bl, res1. split; [exact F|]. split; [reflexivity|].
    intros K acc. rewrite (G K), K. reflexivity.
  - injection H as <- <- <-. split; [reflexivity|]. exists [], (Ok tt). split; [reflexivity|]. split; [reflexivity|].
    intros _ acc. rewrite app_nil_r. reflexivity.
Qed.

Lemma bin_flush_back e acc e' acc' res : bin_flush collect p e acc = Ret (e', acc', res) ->
  exists bl, res = Ok (layout_of_enc e) /\ acc' = acc ++ bl
    /\ forall s s', feed s bl = (s', Ok tt) -> bin_flush wr p e s = Ret (e', s', Ok (layout_of_enc e)).
Proof.
  unfold bin_flush. intros H. destruct e as [e|].
  - destruct (be_flush collect p e acc) as [[[e1 s1] res1]|k|] eqn:E; cbn [bind] in H; try discriminate. injection H as <- <- <-.
    destruct (be_flush_back _ _ _ _ _ E) as (bl & -> & K & G). exists bl. split; [reflexivity|]. split; [exact K|].
    intros s s' X. rewrite (G _ _ X). reflexivity.
  - injection H as <- <- <-. exists []. split; [reflexivity|]. split; [rewrite app_nil_r; reflexivity|]. intros s s' F. injection F as ->. reflexivity.
Qed.
End Sinks.
