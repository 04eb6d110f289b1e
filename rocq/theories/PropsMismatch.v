(** C82: what becomes of a buffer whose nullability is not that of its column
    (raw/binary_enc.rs, raw/primitive_enc.rs). *)
From Verif Require Import Base BaseProofs Spec SpecRows SpecBin Varint VarintProofs Buffers Observe BitmapProofs BuffersProofs
  Rle RleProofs Offsets OffsetsProofs Sink PrimEnc BinEnc ObserveEnc ReadBlock ReadBinBlock RowsProofs BlockProofs PrimEncProofs PrimRunProofs
  PropsPrim PropsPrimRows PropsPrimIds PropsPrimAny PropsPrimAll BinBlockProofs BinEncProofs BinRunProofs PropsBin PropsBinRows PropsBinExact PropsBinFail PropsBoolClear
  Io SpecIo IoProofs IoReadProofs PropsIo Metadata Names PropsNames Segment SpecSegment SegmentProofs SegmentRunProofs PropsSegment PropsSegmentEx PropsEnds.
Open Scope nat_scope.

(** A buffer is as indexing_buffer.rs:236-242 makes it, or any that came from
    it: the offsets are never empty. *)
Definition has_offsets (b : bin_buf) : Prop := bb_offsets b <> [].

Section Binary.
Context {S0 : Type} (wr : sink_fn S0) (p : profile).

Lemma find_offset_end start_offset m : forall l i j o, find_offset p l start_offset m i = Ret (Some (j, o)) -> j < i + length l.
Proof.
  induction l as [|x l IH]; intros i j o H; cbn [find_offset] in H; [discriminate H|].
  destruct (sub32 p x start_offset) as [d|k|]; cbn [bind] in H; try discriminate H. destruct (m <=? d)%N.
  - injection H as <- _. cbn [length]. lia.
  - apply IH in H. cbn [length]. lia.
Qed.

Lemma be_chunk_end buf start m c : be_chunk p buf start m = Ret c -> has_offsets buf -> bc_end c < length (bb_offsets buf).
Proof.
  intros H NE. assert (L : 0 < length (bb_offsets buf)) by (unfold has_offsets in NE; destruct (bb_offsets buf); [congruence|cbn; lia]).
  unfold be_chunk in H. destruct (idx (bb_offsets buf) start) as [so|k|] eqn:I; cbn [bind] in H; try discriminate H.
  assert (SL : length (skipn start (bb_offsets buf)) <= length (bb_offsets buf)) by (rewrite skipn_length; lia).
  destruct (find_offset p (skipn start (bb_offsets buf)) so m 0) as [[[j o]|]|k|] eqn:F; cbn [bind] in H; try discriminate H.
  - apply find_offset_end in F. destruct (sub32 p o so) as [sz|k|]; cbn [bind] in H; try discriminate H.
    destruct (sub64 p _ _) as [ln|k|]; cbn [bind] in H; try discriminate H. injection H as <-. cbn [bc_end]. lia.
  - destruct (idx (bb_offsets buf) (length (bb_offsets buf) - 1)) as [o|k|]; cbn [bind] in H; try discriminate H.
    destruct (sub32 p o so) as [sz|k|]; cbn [bind] in H; try discriminate H.
    destruct (sub64 p _ _) as [ln|k|]; cbn [bind] in H; try discriminate H. injection H as <-. cbn [bc_end]. lia.
Qed.

Lemma be_write_keeps e buf c vp s e' s' r : be_write wr p e buf c vp s = Ret (e', s', r) -> be_remaining e' = be_remaining e.
Proof.
  intros H. unfold be_write in H. destruct (encode_binary_buffer p buf c vp (be_bitmap e)) as [[[en rle] [n lvp]]|k|]; cbn [bind] in H; try discriminate H.
  destruct (be_add_rows (be_rows e) n) as [rows|k|]; cbn [bind] in H; try discriminate H.
  destruct (sub32 p rows 1) as [id|k|]; cbn [bind] in H; try discriminate H. injection H as <- _ _. reflexivity.
Qed.

Lemma mismatch_not_ret (dst src : bin_buf) a b c r : bb_is_nullable dst <> bb_is_nullable src -> bb_append_from p dst src a b c <> Ret r.
Proof. intros H E. destruct (C15_binary_mismatch p dst src a b c H) as [k K]. rewrite K in E. discriminate E. Qed.

Lemma be_loop_mismatch buf : has_offsets buf -> forall fuel e pos vp s e' s',
  bb_is_nullable (be_remaining e) <> bb_is_nullable buf -> pos < length (bb_offsets buf) ->
  be_loop wr p fuel e buf pos vp s <> Ret (e', s', Ok tt).
Proof.
  intros NE. induction fuel as [|fuel IH]; intros e pos vp s e' s' D L H; cbn [be_loop] in H; [discriminate H|].
  destruct (Nat.ltb_spec pos (length (bb_offsets buf))) as [_|X]; [|lia].
  destruct (be_chunk p buf pos (be_min e)) as [c|k|] eqn:C; cbn [bind] in H; try discriminate H.
  destruct (bc_size c <? be_min e)%N.
  - destruct (bb_append_from p (be_remaining e) buf (bc_start c) (bc_end c) vp) as [r|k|] eqn:AF; cbn [bind] in H; try discriminate H.
    exact (mismatch_not_ret _ _ _ _ _ _ D AF).
  - destruct (be_write wr p e buf c vp s) as [[[e1 s1] r]|k|] eqn:W; cbn [bind] in H; try discriminate H.
    destruct r as [lvp|]; [|discriminate H]. apply (IH e1 (bc_end c) lvp s1 e' s'); [|exact (be_chunk_end _ _ _ _ C NE)|exact H].
    rewrite (be_write_keeps _ _ _ _ _ _ _ _ W). exact D.
Qed.

(** The encoder keeps the nullability it was made with. *)
Lemma bb_append_nullable (dst src : bin_buf) a b c r : bb_append_from p dst src a b c = Ret r -> bb_is_nullable (fst r) = bb_is_nullable dst.
Proof.
  intros H. unfold bb_append_from in H.
  destruct (idx (bb_offsets src) a) as [x1|k|]; cbn [bind] in H; try discriminate H. destruct (idx (bb_offsets src) b) as [x2|k|]; cbn [bind] in H; try discriminate H.
  destruct (sub64 p _ _) as [x3|k|]; cbn [bind] in H; try discriminate H. destruct (bb_push_offsets _ _ _ _ _ _) as [x4|k|]; cbn [bind] in H; try discriminate H.
  destruct (slice _ _ _) as [x5|k|]; cbn [bind] in H; try discriminate H. destruct (_ <? _)%N; try discriminate H.
  destruct (validity_append_from _ _ _ _) as [x6|k|] eqn:V; cbn [bind] in H; try discriminate H. injection H as <-. cbn [fst]. unfold bb_is_nullable. cbn [bb_validity].
  unfold validity_append_from in V. destruct (bb_validity dst), (bb_validity src); try discriminate V.
  - destruct (bm_append_from _ _ _ _) as [y|k|]; cbn [bind] in V; try discriminate V. injection V as <-. reflexivity.
  - injection V as <-. reflexivity.
Qed.

Lemma be_loop_nullable buf : forall fuel e pos vp s e' s' r, be_loop wr p fuel e buf pos vp s = Ret (e', s', r) ->
  bb_is_nullable (be_remaining e') = bb_is_nullable (be_remaining e).
Proof.
  induction fuel as [|fuel IH]; intros e pos vp s e' s' r H; cbn [be_loop] in H; [discriminate H|].
  destruct (pos <? length (bb_offsets buf)); [|injection H as <- _ _; reflexivity].
  destruct (be_chunk p buf pos (be_min e)) as [c|k|] eqn:C; cbn [bind] in H; try discriminate H.
  destruct (bc_size c <? be_min e)%N.
  - destruct (bb_append_from p (be_remaining e) buf (bc_start c) (bc_end c) vp) as [r1|k|] eqn:AF; cbn [bind] in H; try discriminate H.
    injection H as <- _ _. exact (bb_append_nullable _ _ _ _ _ _ AF).
  - destruct (be_write wr p e buf c vp s) as [[[e1 s1] r1]|k|] eqn:W; cbn [bind] in H; try discriminate H. pose proof (be_write_keeps _ _ _ _ _ _ _ _ W) as K.
    destruct r1 as [lvp|]; [|injection H as <- _ _; rewrite K; reflexivity]. rewrite (IH _ _ _ _ _ _ _ H), K. reflexivity.
Qed.

Lemma be_remaining_keeps e s e' s' r : be_write_remaining wr p e s = Ret (e', s', r) -> be_remaining e' = be_remaining e.
Proof. intros H. unfold be_write_remaining in H. destruct (idx _ _); cbn [bind] in H; try discriminate H. exact (be_write_keeps _ _ _ _ _ _ _ _ H). Qed.

Lemma bb_clear_nullable b : bb_is_nullable (bb_clear b) = bb_is_nullable b.
Proof. unfold bb_clear, bb_is_nullable. cbn [bb_validity]. destruct (bb_validity b); reflexivity. Qed.

Lemma be_encode_nullable fuel e buf s e' s' r : be_encode wr p fuel e buf s = Ret (e', s', r) ->
  bb_is_nullable (be_remaining e') = bb_is_nullable (be_remaining e).
Proof.
  intros H. unfold be_encode in H. destruct (0 <? bb_len (be_remaining e)); [|exact (be_loop_nullable _ _ _ _ _ _ _ _ _ H)].
  destruct (sub64 p _ _) as [want|k|]; cbn [bind] in H; try discriminate H. destruct (be_chunk p buf 0 want) as [c|k|]; cbn [bind] in H; try discriminate H.
  destruct (bb_append_from p (be_remaining e) buf _ _ 0) as [r1|k|] eqn:AF; cbn [bind] in H; try discriminate H.
  pose proof (bb_append_nullable _ _ _ _ _ _ AF) as K. cbv zeta in H. destruct (_ <? _)%N; [injection H as <- _ _; exact K|].
  destruct (be_write_remaining wr p _ s) as [[[e1 s1] r2]|k|] eqn:W; cbn [bind] in H; try discriminate H. pose proof (be_remaining_keeps _ _ _ _ _ W) as K1. cbn [be_remaining be_set_remaining] in K1.
  destruct r2 as [lvp|]; [|injection H as <- _ _; rewrite K1; exact K].
  rewrite (be_loop_nullable _ _ _ _ _ _ _ _ _ H). cbn [be_remaining be_set_remaining]. rewrite bb_clear_nullable, K1. exact K.
Qed.

Lemma be_encode_mismatch fuel e buf s e' s' : has_offsets buf -> bb_is_nullable (be_remaining e) <> bb_is_nullable buf ->
  be_encode wr p fuel e buf s <> Ret (e', s', Ok tt).
Proof.
  intros NE D H. unfold be_encode in H. assert (L : 0 < length (bb_offsets buf)) by (unfold has_offsets in NE; destruct (bb_offsets buf); [congruence|cbn; lia]).
  destruct (0 <? bb_len (be_remaining e)); [|exact (be_loop_mismatch buf NE _ _ _ _ _ _ _ D L H)].
  destruct (sub64 p _ _) as [want|k|]; cbn [bind] in H; try discriminate H. destruct (be_chunk p buf 0 want) as [c|k|]; cbn [bind] in H; try discriminate H.
  destruct (bb_append_from p (be_remaining e) buf _ _ 0) as [r1|k|] eqn:AF; cbn [bind] in H; try discriminate H. exact (mismatch_not_ret _ _ _ _ _ _ D AF).
Qed.

Lemma be_encodes_nullable : forall bufs e s e' s', Forall has_offsets bufs -> be_encodes wr p e bufs s = Ret (e', s', Ok tt) ->
  Forall (fun b => bb_is_nullable b = bb_is_nullable (be_remaining e)) bufs.
Proof.
  induction bufs as [|b bufs IH]; intros e s e' s' NE H; [constructor|]. cbn [be_encodes] in H. inversion NE as [|? ? NB NR]; subst.
  destruct (be_encode wr p _ e b s) as [[[e1 s1] [[]|]]|k|] eqn:E; cbn [bind] in H; try discriminate H. constructor.
  - destruct (Bool.bool_dec (bb_is_nullable b) (bb_is_nullable (be_remaining e))) as [Q|Q]; [exact Q|]. exfalso. apply (be_encode_mismatch _ _ _ _ _ _ NB (not_eq_sym Q) E).
  - rewrite <- (be_encode_nullable _ _ _ _ _ _ _ E). apply (IH _ _ _ _ NR H).
Qed.
End Binary.

(** Encoding with a sink that takes every block reports no error. *)
Lemma collect_ok p fuel : forall e buf pos vp s e' s' r, be_loop collect p fuel e buf pos vp s = Ret (e', s', r) -> r = Ok tt.
Proof.
  induction fuel as [|fuel IH]; intros e buf pos vp s e' s' r H; cbn [be_loop] in H; [discriminate H|].
  destruct (_ <? _); [|injection H as _ _ <-; reflexivity]. destruct (be_chunk p buf pos (be_min e)) as [c|k|]; cbn [bind] in H; try discriminate H.
  destruct (bc_size c <? be_min e)%N.
  - destruct (bb_append_from _ _ _ _ _ _) as [r1|k|]; cbn [bind] in H; try discriminate H. injection H as _ _ <-. reflexivity.
  - destruct (be_write collect p e buf c vp s) as [[[e1 s1] r1]|k|] eqn:W; cbn [bind] in H; try discriminate H.
    destruct r1 as [lvp|]; [apply (IH _ _ _ _ _ _ _ _ H)|]. unfold be_write in W.
    destruct (encode_binary_buffer p buf c vp (be_bitmap e)) as [[[en rle] [n lvp]]|k|]; cbn [bind] in W; try discriminate W.
    destruct (be_add_rows (be_rows e) n); cbn [bind] in W; try discriminate W. destruct (sub32 p _ 1); cbn [bind collect fst snd] in W; discriminate W.
Qed.

Lemma collect_encode_ok p fuel e buf s e' s' r : be_encode collect p fuel e buf s = Ret (e', s', r) -> r = Ok tt.
Proof.
  intros H. unfold be_encode in H. destruct (0 <? _); [|exact (collect_ok _ _ _ _ _ _ _ _ _ _ H)].
  destruct (sub64 p _ _) as [want|k|]; cbn [bind] in H; try discriminate H. destruct (be_chunk p buf 0 want) as [c|k|]; cbn [bind] in H; try discriminate H.
  destruct (bb_append_from _ _ _ _ _ 0) as [r1|k|]; cbn [bind] in H; try discriminate H. cbv zeta in H. destruct (_ <? _)%N; [injection H as _ _ <-; reflexivity|].
  destruct (be_write_remaining collect p _ s) as [[[e1 s1] r2]|k|] eqn:W; cbn [bind] in H; try discriminate H.
  destruct r2 as [lvp|]; [exact (collect_ok _ _ _ _ _ _ _ _ _ _ H)|]. unfold be_write_remaining, be_write in W.
  destruct (idx _ _); cbn [bind] in W; try discriminate W. destruct (encode_binary_buffer _ _ _ _ _) as [[[en rle] [n lvp]]|k|]; cbn [bind] in W; try discriminate W.
  destruct (be_add_rows _ n); cbn [bind] in W; try discriminate W. destruct (sub32 p _ 1); cbn [bind collect fst snd] in W; discriminate W.
Qed.

(** ** Binary columns *)

(** A binary column that was written without an error was given buffers of its
    own nullability only: with any sink, block size and build. *)
Theorem C82_binary_partial : forall (S0 : Type) (wr : sink_fn S0) p B nl bufs s e' s',
  Forall has_offsets bufs -> be_finish wr p (be_new B nl) bufs s = Ret (e', s', Ok tt) ->
  Forall (fun b => bb_is_nullable b = nl) bufs.
Proof.
  intros S0 wr p B nl bufs s e' s' NE H. unfold be_finish in H.
  destruct (be_encodes wr p (be_new B nl) bufs s) as [[[e1 s1] [[]|]]|k|] eqn:E; cbn [bind] in H; try discriminate H.
  eapply Forall_impl; [|exact (be_encodes_nullable wr p _ _ _ _ _ NE E)]. cbn. intros b ->. destruct nl; reflexivity.
Qed.
Print Assumptions C82_binary_partial.

(** The call with such a buffer panics, unless a write fails first. *)
Theorem C82_binary_call_partial : forall (S0 : Type) (wr : sink_fn S0) p e buf s n k,
  bin_fits n (be_remaining e) -> bin_fits k buf -> (N.of_nat (n + k) < rows_bound)%N ->
  has_offsets buf -> bb_is_nullable (be_remaining e) <> bb_is_nullable buf ->
  is_panic (be_encode wr p (length (bb_offsets buf)) e buf s)
  \/ exists e' s', be_encode wr p (length (bb_offsets buf)) e buf s = Ret (e', s', Err).
Proof.
  intros S0 wr p e buf s n k FE FB NB NE D. destruct (C78_binary S0 wr p e buf s n k FE FB NB) as (_ & F & _). cbn [bin_encode] in F.
  destruct (be_encode wr p (length (bb_offsets buf)) e buf s) as [[[e' s'] [[]|]]|q|] eqn:E.
  - exfalso. exact (be_encode_mismatch wr p _ _ _ _ _ _ NE D E).
  - right. eauto.
  - left. eexists. reflexivity.
  - exfalso. apply F. reflexivity.
Qed.
Print Assumptions C82_binary_call_partial.

(** If there is something left of earlier buffers it panics at once, and nothing
    is written. *)
Theorem C82_binary_pending_partial : forall (S0 : Type) (wr : sink_fn S0) p fuel e buf s,
  0 < bb_len (be_remaining e) -> bb_is_nullable (be_remaining e) <> bb_is_nullable buf ->
  is_panic (be_encode wr p fuel e buf s).
Proof.
  intros S0 wr p fuel e buf s L D. unfold be_encode. destruct (Nat.ltb_spec 0 (bb_len (be_remaining e))) as [_|X]; [|lia].
  assert (US : forall lim a b, (exists x, usub lim p a b = Ret x) \/ is_panic (usub lim p a b)).
  { intros lim a b. unfold usub. repeat match goal with |- context [if ?c then _ else _] => destruct c end; eauto; right; eexists; reflexivity. }
  assert (IX : forall (l : list N) i, (exists x, idx l i = Ret x) \/ is_panic (idx l i)).
  { intros l i. unfold idx. destruct (nth_error l i); eauto. right; eexists; reflexivity. }
  assert (FO : forall l so m i, (exists x, find_offset p l so m i = Ret x) \/ is_panic (find_offset p l so m i)).
  { induction l as [|o l IH]; intros so m i; cbn [find_offset]; [eauto|]. unfold sub32. destruct (US u32_lim o so) as [(d & ->)|(k & ->)]; [|right; eexists; reflexivity].
    rewrite bind_ret. destruct (m <=? d)%N; eauto. }
  assert (CH : forall want, (exists c, be_chunk p buf 0 want = Ret c) \/ is_panic (be_chunk p buf 0 want)).
  { intros want. unfold be_chunk, sub32, sub64. destruct (IX (bb_offsets buf) 0) as [(so & ->)|(k & ->)]; [|right; eexists; reflexivity]. rewrite bind_ret.
    destruct (FO (skipn 0 (bb_offsets buf)) so want 0) as [([[j o]|] & ->)|(k & ->)]; [| |right; eexists; reflexivity]; rewrite bind_ret.
    - rewrite bind_ret. destruct (US u32_lim o so) as [(d & ->)|(k & ->)]; [|right; eexists; reflexivity]. rewrite bind_ret.
      destruct (US u64_lim (N.of_nat j) (N.of_nat 0)) as [(d' & ->)|(k & ->)]; [|right; eexists; reflexivity]. rewrite bind_ret. eauto.
    - destruct (IX (bb_offsets buf) (length (bb_offsets buf) - 1)) as [(o & ->)|(k & ->)]; [|right; eexists; reflexivity]. rewrite !bind_ret.
      destruct (US u32_lim o so) as [(d & ->)|(k & ->)]; [|right; eexists; reflexivity]. rewrite bind_ret.
      destruct (US u64_lim (N.of_nat (length (bb_offsets buf) - 1)) (N.of_nat 0)) as [(d' & ->)|(k & ->)]; [|right; eexists; reflexivity]. rewrite bind_ret. eauto. }
  cbv zeta. unfold sub64 at 1. destruct (US u64_lim (be_min e) (N.of_nat (length (bb_data (be_remaining e))))) as [(want & ->)|(k & ->)]; [|eexists; reflexivity].
  rewrite bind_ret. destruct (CH want) as [(c & ->)|(k & ->)]; [|eexists; reflexivity]. rewrite bind_ret.
  destruct (C15_binary_mismatch p (be_remaining e) buf (bc_start c) (bc_end c) 0 D) as [k ->]. eexists. reflexivity.
Qed.
Print Assumptions C82_binary_pending_partial.

(** Otherwise blocks can have been written before the panic: blocks laid out the
    way the other kind of column has them. *)
Definition C82_binary_statement : Prop := forall (S0 : Type) (wr : sink_fn S0) p B nl buf s e' s' r,
  has_offsets buf -> bb_is_nullable buf <> nl -> be_encode wr p (length (bb_offsets buf)) (be_new B nl) buf s = Ret (e', s', r) -> s' = s.

(** The second write fails; the first left a block with validity in a column
    that has none, which cannot be read as one of its blocks. *)
Theorem C82_binary_refuted : ~ C82_binary_statement.
Proof.
  intros H. destruct (bb_append_rows (bb_new true) [Some [1; 2]; Some [3]; Some [4]]%N) as [buf| |] eqn:E; pose proof E as V; vm_compute in V; try discriminate V. injection V as V.
  destruct (be_encode scripted Release (length (bb_offsets buf)) (be_new 2 false) buf ([true; false], [])) as [[[e' s'] r]| |] eqn:R;
    pose proof R as W; rewrite <- V in W; vm_compute in W; try discriminate W.
  assert (X : s' = ([true; false], [])).
  { apply (H _ scripted Release 2%N false buf ([true; false], []) e' s' r); [rewrite <- V; discriminate|rewrite <- V; discriminate|exact R]. }
  rewrite X in W. discriminate W.
Qed.
Print Assumptions C82_binary_refuted.

(** The same for every raw column of a segment for which no call reported an
    error. *)
Lemma encoder_run_nullable p : forall cops e acc blocks, encoder_run p (RawEnc e) cops acc = Ret blocks ->
  forall b, In (CWrite b) cops -> has_offsets b -> bb_is_nullable b = bb_is_nullable (be_remaining e).
Proof.
  induction cops as [|o cops IH]; intros e acc blocks H b I NE; [destruct I|]. destruct o as [b0|]; cbn [encoder_run bin_encode bin_flush] in H.
  - destruct (be_encode collect p _ e b0 acc) as [[[e1 acc1] r]|k|] eqn:E; cbn [bind] in H; try discriminate H. destruct I as [I|I].
    + injection I as ->. rewrite (collect_encode_ok _ _ _ _ _ _ _ _ E) in E.
      destruct (Bool.bool_dec (bb_is_nullable b) (bb_is_nullable (be_remaining e))) as [Q|Q]; [exact Q|]. exfalso. exact (be_encode_mismatch collect p _ _ _ _ _ _ NE (not_eq_sym Q) E).
    + rewrite <- (be_encode_nullable collect p _ _ _ _ _ _ _ E). exact (IH _ _ _ H b I NE).
  - destruct I as [I|I]; [discriminate I|]. destruct (be_flush collect p e acc) as [[[e1 acc1] r]|k|] eqn:E; cbn [bind] in H; try discriminate H.
    replace (bb_is_nullable (be_remaining e)) with (bb_is_nullable (be_remaining e1)); [exact (IH _ _ _ H b I NE)|]. unfold be_flush in E.
    destruct (0 <? _); [|injection E as <- _ _; reflexivity]. destruct (be_write_remaining collect p e acc) as [[[e2 s2] r2]|k|] eqn:W; cbn [bind] in E; try discriminate E.
    injection E as <- _ _. rewrite (be_remaining_keeps collect p _ _ _ _ _ W). reflexivity.
Qed.

Theorem C82_segment_partial : forall p w base info w1 sg ops it w2 sg2 rs ci cops b,
  0 < wd_max w -> is_id (si_segment_id info) -> segment_new w base info = (w1, Ok sg) ->
  orders_ok (ops ++ [SClose it]) -> seg_run p w1 sg (ops ++ [SClose it]) = Ret (w2, sg2, rs) -> all_ok rs ->
  In (SColumn ci cops) ops -> ci_encoding ci = Raw -> In (CWrite b) cops -> has_offsets b ->
  bb_is_nullable b = ci_nullable ci.
Proof.
  intros p w base info w1 sg ops it w2 sg2 rs ci cops b M ID NW O H A I RAW IB NE.
  destruct (C45_data_file (fun _ => None) p w base info w1 sg ops it w2 sg2 rs M ID NW O H A) as (blocks & B & _).
  clear -I B RAW IB NE. revert blocks B. induction ops as [|o ops IH]; intros blocks B; [destruct I|]. destruct I as [->|I].
  - cbn [segment_blocks] in B. unfold column_blocks in B. rewrite RAW in B. cbn [new_binary_encoder] in B.
    destruct (encoder_run p (RawEnc (be_new 128 (ci_nullable ci))) cops []) as [bl|k|] eqn:E; cbn [bind] in B; try discriminate B.
    rewrite (encoder_run_nullable p _ _ _ _ E b IB NE). cbn. destruct (ci_nullable ci); reflexivity.
  - destruct o as [ci' cops'|it']; cbn [segment_blocks] in B; [|exact (IH I _ B)].
    destruct (column_blocks p ci' cops') as [bl|k|]; cbn [bind] in B; try discriminate B.
    destruct (segment_blocks p ops) as [more|k|] eqn:E; cbn [bind] in B; try discriminate B. exact (IH I _ eq_refl).
Qed.
Print Assumptions C82_segment_partial.

(** ** Columns of fixed width *)

(** An encoder with other pending rows, after a call. *)
Definition with_remaining {S0 R : Type} (r : prim_buf N) (o : outcome (prim_enc * S0 * R)) : outcome (prim_enc * S0 * R) :=
  let* x := o in let '(e, s, res) := x in Ret (pe_set_remaining e r, s, res).

Section Fixed.
Context {S0 : Type} (wr : sink_fn S0) (p : profile) (sz : nat).

Lemma pe_write_other e r buf a b vp s : pe_write wr p sz (pe_set_remaining e r) buf a b vp s = with_remaining r (pe_write wr p sz e buf a b vp s).
Proof.
  unfold pe_write, with_remaining. cbn [pe_bitmap pe_rows pe_min pe_set_remaining pe_remaining].
  destruct (encode_primitive_buffer sz buf a b vp (pe_bitmap e)) as [[[en rle] [n lvp]]|k|]; cbn [bind]; try reflexivity.
  destruct (pe_add_rows (pe_rows e) n) as [rows|k|]; cbn [bind]; try reflexivity. destruct (sub32 p rows 1) as [id|k|]; reflexivity.
Qed.

Lemma pe_write_keeps e buf a b vp s e' s' r : pe_write wr p sz e buf a b vp s = Ret (e', s', r) -> pe_remaining e' = pe_remaining e /\ pe_min e' = pe_min e.
Proof.
  intros H. unfold pe_write in H. destruct (encode_primitive_buffer sz buf a b vp (pe_bitmap e)) as [[[en rle] [n lvp]]|k|]; cbn [bind] in H; try discriminate H.
  destruct (pe_add_rows (pe_rows e) n) as [rows|k|]; cbn [bind] in H; try discriminate H.
  destruct (sub32 p rows 1) as [id|k|]; cbn [bind] in H; try discriminate H. injection H as <- _ _. split; reflexivity.
Qed.

Lemma pe_loop_other B cap r buf : 0 < sz -> fits sz B cap -> (N.of_nat (pb_len buf + cap) < u64_lim)%N ->
  forall fuel e pos vp s j, pe_min e = B -> pos + j * cap = pb_len buf ->
  pe_loop wr p sz fuel (pe_set_remaining e r) buf pos vp s = with_remaining r (pe_loop wr p sz fuel e buf pos vp s).
Proof.
  intros Hs HF HL. induction fuel as [|fuel IH]; intros e pos vp s j HM HJ; [reflexivity|]. cbn [pe_loop].
  destruct (Nat.ltb_spec pos (pb_len buf)) as [L|L]; [|reflexivity]. destruct j as [|j]; [cbn in HJ; lia|].
  assert (LE : pos + cap <= pb_len buf) by (cbn in HJ; lia). cbn [pe_min pe_set_remaining]. fold (pe_set_remaining e r). rewrite HM.
  rewrite (pe_chunk_ok p sz _ _ B cap Hs HF) by lia. rewrite !bind_ret. replace (min (pb_len buf) (pos + cap)) with (pos + cap) by lia.
  replace (pos + cap - pos) with cap by lia. cbv zeta. destruct (N.ltb_spec (N.of_nat (cap * sz)) B) as [X|_]; [destruct HF; lia|].
  rewrite pe_write_other. destruct (pe_write wr p sz e buf pos (pos + cap) vp s) as [[[e1 s1] [lvp|]]|k|] eqn:W; cbn [with_remaining bind]; try reflexivity.
  apply (IH e1 (pos + cap) lvp s1 j); [|cbn in HJ; lia]. rewrite (proj2 (pe_write_keeps _ _ _ _ _ _ _ _ _ W)). exact HM.
Qed.

Lemma prim_mismatch {T} (dst src : prim_buf T) a b c : pb_is_nullable dst <> pb_is_nullable src -> is_panic (pb_append_from dst src a b c).
Proof.
  intros D. unfold pb_append_from, slice. destruct (_ && _); [|eexists; reflexivity]. rewrite bind_ret. cbv zeta. destruct (_ <? _)%N; [|eexists; reflexivity].
  unfold pb_is_nullable in D. destruct (pb_validity dst), (pb_validity src); try congruence; eexists; reflexivity.
Qed.

Lemma pe_loop_mismatch B cap buf : 0 < sz -> fits sz B cap -> (N.of_nat (pb_len buf + cap) < u64_lim)%N ->
  forall fuel e pos vp s e' s', pe_min e = B -> pb_is_nullable (pe_remaining e) <> pb_is_nullable buf -> pos <= pb_len buf ->
  pe_loop wr p sz fuel e buf pos vp s = Ret (e', s', Ok tt) -> exists j, pos + j * cap = pb_len buf.
Proof.
  intros Hs HF HL. induction fuel as [|fuel IH]; intros e pos vp s e' s' HM D LP H; [discriminate H|]. cbn [pe_loop] in H.
  destruct (Nat.ltb_spec pos (pb_len buf)) as [L|L]; [|exists 0; lia].
  rewrite HM, (pe_chunk_ok p sz _ _ B cap Hs HF) in H by lia. rewrite bind_ret in H. cbv zeta in H.
  destruct (Nat.le_gt_cases (pos + cap) (pb_len buf)) as [F|F].
  - replace (min (pb_len buf) (pos + cap)) with (pos + cap) in H by lia. replace (pos + cap - pos) with cap in H by lia.
    destruct (N.ltb_spec (N.of_nat (cap * sz)) B) as [X|_]; [destruct HF; lia|].
    destruct (pe_write wr p sz e buf pos (pos + cap) vp s) as [[[e1 s1] [lvp|]]|k|] eqn:W; cbn [bind] in H; try discriminate H.
    destruct (pe_write_keeps _ _ _ _ _ _ _ _ _ W) as [K1 K2]. destruct (IH e1 (pos + cap) lvp s1 e' s') as [j J]; try assumption; [congruence|congruence|]. exists (S j). cbn. lia.
  - replace (min (pb_len buf) (pos + cap)) with (pb_len buf) in H by lia.
    destruct (N.ltb_spec (N.of_nat ((pb_len buf - pos) * sz)) B) as [_|X]; [|exfalso; destruct HF as [HF1 HF2]; clear -X HF2 F L; nia].
    destruct (prim_mismatch (pe_remaining e) buf pos (pb_len buf) vp D) as [k K]. rewrite K in H. discriminate H.
Qed.
End Fixed.

Section FixedColumn.
Context {S0 : Type} (wr : sink_fn S0) (p : profile) (sz : nat).

Lemma set_same e : pe_set_remaining e (pe_remaining e) = e.
Proof. destruct e. reflexivity. Qed.

(** With nothing pending and whole blocks in the buffer the pending rows of the
    encoder, and so its nullability, play no role. *)
Lemma pe_encode_other B cap e r buf fuel s j : 0 < sz -> fits sz B cap -> (N.of_nat (pb_len buf + cap) < u64_lim)%N -> pe_min e = B ->
  pb_len buf = j * cap -> pb_len (pe_remaining e) = 0 -> pb_len r = 0 ->
  pe_encode wr p sz fuel (pe_set_remaining e r) buf s = with_remaining r (pe_encode wr p sz fuel e buf s).
Proof.
  intros Hs HF HL HM HJ L1 L2. unfold pe_encode. cbn [pe_remaining pe_set_remaining]. rewrite L1, L2. cbn [Nat.ltb Nat.leb].
  apply (pe_loop_other wr p sz B cap r buf Hs HF HL fuel e 0 0 s j HM). lia.
Qed.

Lemma pe_loop_keeps B buf : forall fuel e pos vp s e' s' r, pe_min e = B -> pe_loop wr p sz fuel e buf pos vp s = Ret (e', s', r) ->
  pe_min e' = B /\ pb_is_nullable (pe_remaining e') = pb_is_nullable (pe_remaining e).
Proof.
  induction fuel as [|fuel IH]; intros e pos vp s e' s' r HM H; [discriminate H|]. cbn [pe_loop] in H.
  destruct (pos <? pb_len buf); [|injection H as <- _ _; split; [exact HM|reflexivity]].
  destruct (pe_chunk p sz _ pos _) as [q|k|]; cbn [bind] in H; try discriminate H. cbv zeta in H. destruct (_ <? _)%N.
  - destruct (pb_append_from (pe_remaining e) buf pos q vp) as [r1|k|] eqn:AF; cbn [bind] in H; try discriminate H. injection H as <- _ _. split; [exact HM|].
    cbn [pe_remaining pe_set_remaining]. clear -AF. destruct (Bool.bool_dec (pb_is_nullable (pe_remaining e)) (pb_is_nullable buf)) as [Q|Q]; [|destruct (prim_mismatch _ buf pos q vp Q) as [k K]; rewrite K in AF; discriminate AF].
    unfold pb_append_from in AF. destruct (slice _ _ _); cbn [bind] in AF; try discriminate AF. cbv zeta in AF. destruct (_ <? _)%N; [|discriminate AF].
    unfold pb_is_nullable, validity_append_from in *. destruct (pb_validity (pe_remaining e)), (pb_validity buf); try discriminate Q.
    + destruct (bm_append_from _ _ _ _); cbn [bind] in AF; try discriminate AF. injection AF as <-. reflexivity.
    + injection AF as <-. reflexivity.
  - destruct (pe_write wr p sz e buf pos q vp s) as [[[e1 s1] [lvp|]]|k|] eqn:W; cbn [bind] in H; try discriminate H; destruct (pe_write_keeps wr p sz _ _ _ _ _ _ _ _ _ W) as [K1 K2].
    + rewrite <- K1. apply (IH e1 q lvp s1 e' s' r); [congruence|exact H].
    + injection H as <- _ _. rewrite K1. split; [congruence|reflexivity].
Qed.

Lemma pe_encodes_other B cap : 0 < sz -> fits sz B cap -> forall bufs e r s,
  Forall (fun b => (N.of_nat (pb_len b + cap) < u64_lim)%N /\ exists j, pb_len b = j * cap) bufs -> pe_min e = B ->
  pb_len (pe_remaining e) = 0 -> pb_len r = 0 ->
  pe_finish wr p sz (pe_set_remaining e r) bufs s = with_remaining r (pe_finish wr p sz e bufs s).
Proof.
  intros Hs HF. unfold pe_finish. induction bufs as [|b bufs IH]; intros e r s FB HM L1 L2; cbn [pe_encodes].
  - rewrite !bind_ret. unfold pe_flush. cbn [pe_remaining pe_set_remaining]. rewrite L1, L2. reflexivity.
  - inversion FB as [|? ? [HL [j HJ]] FR]; subst.
    assert (SAME : forall q, pb_len q = 0 -> pe_encode wr p sz (Datatypes.S (pb_len b)) (pe_set_remaining e q) b s = with_remaining q (pe_encode wr p sz (Datatypes.S (pb_len b)) e b s)).
    { intros q Lq. apply (pe_encode_other (pe_min e) cap e q b _ s j); try assumption. reflexivity. }
    assert (OWN : pe_encode wr p sz (Datatypes.S (pb_len b)) e b s = with_remaining (pe_remaining e) (pe_encode wr p sz (Datatypes.S (pb_len b)) e b s)).
    { rewrite <- SAME by exact L1. rewrite set_same. reflexivity. }
    rewrite (SAME r L2). destruct (pe_encode wr p sz (Datatypes.S (pb_len b)) e b s) as [[[e1 s1] res]|k|] eqn:E; cbn [with_remaining bind] in *; try reflexivity.
    injection OWN as OWN. destruct res as [[]|]; [|reflexivity]. apply IH; [exact FR| |rewrite OWN; exact L1|exact L2].
    unfold pe_encode in E. rewrite L1 in E. cbn [Nat.ltb Nat.leb] in E. apply (pe_loop_keeps (pe_min e) b _ _ _ _ _ _ _ _ eq_refl E).
Qed.
End FixedColumn.

(** A fixed width buffer of the other nullability: if rows are pending it is a
    panic; if the values of the buffer do not fill a whole number of blocks the
    call does not succeed; else nothing is noticed, and the sink is given what a
    column of the buffer's nullability gives it. *)
Theorem C82_fixed_call_exact : forall (S0 : Type) (wr : sink_fn S0) p sz B cap e buf s fuel,
  0 < sz -> (B <= N.of_nat (cap * sz) < B + N.of_nat sz)%N -> (N.of_nat (pb_len buf + cap) < 2 ^ 64)%N ->
  pe_min e = B -> pb_is_nullable buf <> pb_is_nullable (pe_remaining e) ->
  (0 < pb_len (pe_remaining e) -> is_panic (pe_encode wr p sz fuel e buf s))
  /\ (pb_len (pe_remaining e) = 0 -> (forall j, pb_len buf <> j * cap) -> forall e' s', pe_encode wr p sz fuel e buf s <> Ret (e', s', Ok tt))
  /\ (pb_len (pe_remaining e) = 0 -> (exists j, pb_len buf = j * cap) -> forall s' r,
        let other := pe_set_remaining e (pb_new (pb_is_nullable buf)) in
        (exists e', pe_encode wr p sz fuel e buf s = Ret (e', s', r)) <-> (exists e', pe_encode wr p sz fuel other buf s = Ret (e', s', r))).
Proof.
  intros S0 wr p sz B cap e buf s fuel Hs HF HL HM D. change (2 ^ 64)%N with u64_lim in HL. apply not_eq_sym in D. split; [|split].
  - intros L. unfold pe_encode. destruct (Nat.ltb_spec 0 (pb_len (pe_remaining e))) as [_|X]; [|lia]. cbv zeta.
    unfold sub64, usub. destruct (_ <=? _)%N; [|destruct p; [eexists; reflexivity|]]; rewrite bind_ret.
    all: match goal with |- context [pe_chunk ?a ?b ?c ?d ?w] => destruct (pe_chunk a b c d w) as [q|k|] eqn:Q end.
    all: try (eexists; reflexivity).
    all: try (exfalso; unfold pe_chunk, add64, uadd in Q; cbv zeta in Q; repeat match type of Q with context [if ?c then _ else _] => destruct c end; discriminate Q).
    all: rewrite bind_ret; destruct (prim_mismatch (pe_remaining e) buf 0 q 0 D) as [k ->]; eexists; reflexivity.
  - intros L ND e' s' H. unfold pe_encode in H. rewrite L in H. cbn [Nat.ltb Nat.leb] in H.
    destruct (pe_loop_mismatch wr p sz B cap buf Hs HF HL fuel e 0 0 s e' s' HM D ltac:(lia) H) as [j J]. apply (ND j). lia.
  - intros L [j J] s' r other. unfold other. rewrite (pe_encode_other wr p sz B cap e (pb_new (pb_is_nullable buf)) buf fuel s j Hs HF HL HM J L) by reflexivity.
    destruct (pe_encode wr p sz fuel e buf s) as [[[e1 s1] res]|k|]; cbn [with_remaining bind]; split; intros [e' H]; try discriminate H; injection H as _ <- <-; eauto.
Qed.
Print Assumptions C82_fixed_call_exact.

(** A column all of whose buffers have whole blocks of values is written the same
    way whatever its nullability and theirs. *)
Theorem C82_fixed_column_exact : forall p sz B cap nl nl' bufs,
  0 < sz -> (B <= N.of_nat (cap * sz) < B + N.of_nat sz)%N ->
  Forall (fun b => (N.of_nat (pb_len b + cap) < 2 ^ 64)%N /\ exists j, pb_len b = j * cap) bufs ->
  pe_column p sz B nl bufs = pe_column p sz B nl' bufs.
Proof.
  intros p sz B cap nl nl' bufs Hs HF FB. unfold pe_column.
  change (pe_new B nl') with (pe_set_remaining (pe_new B nl) (pb_new nl')).
  rewrite (pe_encodes_other collect p sz B cap Hs HF bufs (pe_new B nl) (pb_new nl') []); [|exact FB|reflexivity..].
  destruct (pe_finish collect p sz (pe_new B nl) bufs []) as [[[e s] r]|k|]; reflexivity.
Qed.
Print Assumptions C82_fixed_column_exact.

(** So a mismatch goes unnoticed. *)
Definition C82_fixed_statement : Prop := forall p sz B nl bufs written,
  0 < sz -> (0 < B)%N -> pe_column p sz B nl bufs = Ret (written, Ok tt) -> Forall (fun b => pb_is_nullable b = nl) bufs.

(** Two values and a null, in a column of 4 byte values that is not nullable:
    its one block cannot be read.  In a nullable column the block written for a
    buffer without validity cannot be read either. *)
Definition mm_nullable : prim_buf N := match pb_append_rows (pb_new true) [Some 1; None; Some 2]%N with Ret b => b | _ => pb_new true end.
Definition mm_plain : prim_buf N := match pb_append_rows (pb_new false) [Some 1; Some 2]%N with Ret b => b | _ => pb_new false end.

Theorem C82_fixed_refuted : ~ C82_fixed_statement.
Proof.
  intros H. destruct (pe_column Release 4 8 false [mm_nullable]) as [[written [[]|]]| |] eqn:E; pose proof E as V; vm_compute in V; try discriminate V.
  specialize (H Release 4 8%N false [mm_nullable] written ltac:(lia) ltac:(lia) E). inversion H as [|? ? Q _]. vm_compute in Q. discriminate Q.
Qed.
Print Assumptions C82_fixed_refuted.

Example C82_fixed_witness :
  match pe_column Debug 4 8 false [mm_nullable], pe_column Debug 4 8 true [mm_plain] with
  | Ret ([(i, a)], Ok tt), Ret ([(i', b)], Ok tt) =>
      read_primitive_block Debug 4 false a = Ret Err /\ read_primitive_block Debug 4 true a = Ret (Ok [Some 1; None; Some 2]%N)
      /\ (forall rows, read_primitive_block Debug 4 true b <> Ret (Ok rows)) /\ read_primitive_block Debug 4 false b = Ret (Ok [Some 1; Some 2]%N)
  | _, _ => False
  end
  /\ is_panic (pe_column Debug 4 16 false [mm_nullable]) /\ pb_len mm_nullable = 1 * 2.
Proof.
  split; [|split; [vm_compute; eexists; reflexivity|reflexivity]].
  destruct (pe_column Debug 4 8 false [mm_nullable]) as [[[|[i a] [|]] [[]|]]| |] eqn:E1; vm_compute in E1; try discriminate E1.
  destruct (pe_column Debug 4 8 true [mm_plain]) as [[[|[i' b] [|]] [[]|]]| |] eqn:E2; vm_compute in E2; try discriminate E2.
  injection E1 as <- <-. injection E2 as <- <-. split; [vm_compute; reflexivity|]. split; [vm_compute; reflexivity|]. split; [|vm_compute; reflexivity].
  intros rows H. vm_compute in H. discriminate H.
Qed.

(** In a binary column of block size 4 that is not nullable the buffer is
    noticed after a block was written. *)
Example C82_binary_witness :
  match bb_append_rows (bb_new true) [None; Some [1; 2; 3; 4]; Some [5; 6]]%N with
  | Ret buf =>
      has_offsets buf /\ bb_is_nullable (be_remaining (be_new 4 false)) <> bb_is_nullable buf
      /\ be_encode collect Debug (length (bb_offsets buf)) (be_new 4 false) buf [] = Panic PExpect
      /\ match be_encode collect Debug (length (bb_offsets buf)) (be_new 4 true) buf [] with
         | Ret (e, [(_, block)], Ok tt) => read_binary_block Debug true 1 block = Ret (Ok [None; Some [1; 2; 3; 4]]%N)
                                           /\ read_binary_block Debug false 1 block = Ret Err
         | _ => False
         end
  | _ => False
  end.
Proof. vm_compute. repeat split; discriminate. Qed.

(** The segment of [C45_witness] meets the hypotheses of [C82_segment_partial];
    the same buffer in its nullable column is a panic. *)
Example C82_segment_witness :
  (exists w1 sg w2 sg2 rs, segment_new ex_world ex_base ex_info = (w1, Ok sg)
    /\ seg_run Debug w1 sg (ex_ops ++ [SClose ex_it]) = Ret (w2, sg2, rs) /\ all_ok rs)
  /\ In (SColumn ex_a [CWrite ex_buf; CClose]) ex_ops /\ ci_encoding ex_a = Raw /\ has_offsets ex_buf /\ bb_is_nullable ex_buf = ci_nullable ex_a
  /\ match segment_new ex_world ex_base ex_info with
     | (w1, Ok sg) => seg_run Debug w1 sg [SColumn ex_a2 [CWrite ex_buf; CClose]; SClose ex_it] = Panic PAssert
     | _ => False
     end.
Proof.
  split; [|split; [left; reflexivity|]; split; [reflexivity|]; split; [discriminate|]; split; [reflexivity|vm_compute; reflexivity]].
  destruct C45_witness as (w1 & sg & w2 & sg2 & rs & bl & _ & _ & A & _ & B & C & _). exists w1, sg, w2, sg2, rs. auto.
Qed.
