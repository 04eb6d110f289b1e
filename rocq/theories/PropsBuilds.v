(** C64: builds with and without overflow checks agree unless a check fires. *)
From Verif Require Import Base BaseProofs Spec SpecRows Util Varint Buffers Observe Rle Offsets Sink PrimEnc BinEnc Io SpecIo Segment SpecSegment ObserveEnc PropsIo PropsPrim PropsPrimErr.
Open Scope nat_scope.

(** The two builds do the same, or the first stops with "arithmetic overflow". *)
Definition agrees {A} (f : profile -> outcome A) : Prop := f Debug = f Release \/ f Debug = Panic POverflow.

Lemma agrees_const {A} (m : outcome A) : agrees (fun _ => m).
Proof. left. reflexivity. Qed.

Lemma agrees_bind {A B} (m : profile -> outcome A) (k : profile -> A -> outcome B) :
  agrees m -> (forall x, agrees (fun p => k p x)) -> agrees (fun p => bind (m p) (k p)).
Proof.
  intros [M|M] K; unfold agrees; rewrite M; [|right; reflexivity].
  destruct (m Release) as [a|e|]; cbn [bind]; [apply (K a)|left; reflexivity|left; reflexivity].
Qed.

Lemma agrees_uadd lim a b : agrees (fun p => uadd lim p a b).
Proof. unfold agrees, uadd. destruct (a + b <? lim)%N; auto. Qed.
Lemma agrees_usub lim a b : agrees (fun p => usub lim p a b).
Proof. unfold agrees, usub. destruct (b <=? a)%N; auto. Qed.

Create HintDb builds.

Ltac agree_const := match goal with |- agrees (fun p => ?m) => exact (agrees_const m) end.
Ltac agree :=
  first [agree_const |
  lazymatch goal with
  | |- agrees (fun p => bind _ _) => apply agrees_bind; [agree|intros ?; agree]
  | |- agrees (fun p => add32 p _ _) => apply agrees_uadd
  | |- agrees (fun p => sub32 p _ _) => apply agrees_usub
  | |- agrees (fun p => add64 p _ _) => apply agrees_uadd
  | |- agrees (fun p => sub64 p _ _) => apply agrees_usub
  | |- agrees (fun p => let '(_, _) := ?x in _) => destruct x; agree
  | |- agrees (fun p => match ?x with _ => _ end) => destruct x; agree
  | |- _ => first [solve [auto with builds] | idtac]
  end].

(** ** Numbers *)

Lemma agrees_decode_varint buf : agrees (fun p => decode_varint p buf).
Proof. unfold decode_varint. agree. Qed.
#[local] Hint Resolve agrees_decode_varint : builds.

(** ** Run-length decoding *)

Lemma agrees_read_frame enc d : agrees (fun p => rle_read_frame p enc d).
Proof. unfold rle_read_frame. agree. Qed.
#[local] Hint Resolve agrees_read_frame : builds.
Lemma agrees_bump d n : agrees (fun p => rle_bump p d n).
Proof. unfold rle_bump. agree. Qed.
#[local] Hint Resolve agrees_bump : builds.
Lemma agrees_masks ms byte : forall d, agrees (fun p => rle_decode_masks p ms byte d).
Proof. induction ms as [|m ms IH]; intros d; cbn [rle_decode_masks]; agree. Qed.
Lemma agrees_byte byte d : agrees (fun p => rle_decode_byte p byte d).
Proof. apply agrees_masks. Qed.
#[local] Hint Resolve agrees_byte : builds.
Lemma agrees_bitmap bytes : forall d, agrees (fun p => rle_decode_bitmap p bytes d).
Proof. induction bytes as [|b bytes IH]; intros d; cbn [rle_decode_bitmap]; agree. Qed.
#[local] Hint Resolve agrees_bitmap : builds.
Lemma agrees_ones n : forall d, agrees (fun p => rle_decode_ones p n d).
Proof. induction n as [|n IH]; intros d; cbn [rle_decode_ones]; agree. Qed.
#[local] Hint Resolve agrees_ones : builds.
Lemma agrees_repeat n v : forall d, agrees (fun p => rle_decode_repeat p n v d).
Proof. induction n as [|n IH]; intros d; cbn [rle_decode_repeat]; agree. Qed.
#[local] Hint Resolve agrees_repeat : builds.
Lemma agrees_run len v d : agrees (fun p => rle_decode_run p len v d).
Proof. unfold rle_decode_run. agree. Qed.
#[local] Hint Resolve agrees_run : builds.
Lemma agrees_decode_loop fuel enc : forall d, agrees (fun p => rle_decode_loop p fuel enc d).
Proof. induction fuel as [|fuel IH]; intros d; cbn [rle_decode_loop]; agree. Qed.
#[local] Hint Resolve agrees_decode_loop : builds.
Lemma agrees_rle_decode enc dst : agrees (fun p => rle_decode p enc dst).
Proof. unfold rle_decode. agree. Qed.

(** ** Buffers and blocks *)

Lemma agrees_has_nulls v n : agrees (fun p => validity_has_nulls p v n).
Proof. unfold validity_has_nulls. agree. Qed.
Lemma agrees_item_len b i : agrees (fun p => bb_item_len p b i).
Proof. unfold bb_item_len. agree. Qed.
#[local] Hint Resolve agrees_item_len : builds.
Lemma agrees_push buf count : forall i last offs, agrees (fun p => bb_push_offsets p buf i count last offs).
Proof. induction count as [|count IH]; intros i last offs; cbn [bb_push_offsets]; agree. Qed.
#[local] Hint Resolve agrees_push : builds.
Lemma agrees_append_from b buf s e v : agrees (fun p => bb_append_from p b buf s e v).
Proof. unfold bb_append_from. agree. Qed.
#[local] Hint Resolve agrees_append_from : builds.
Lemma agrees_round n : agrees (fun p => round_upto_power_of_2 p n (N.of_nat BLOCK_LEN)).
Proof.
  unfold round_upto_power_of_2. apply agrees_bind; [left; reflexivity|intros _; agree].
Qed.
#[local] Hint Resolve agrees_round : builds.
Lemma agrees_off_encode src dst : agrees (fun p => off_encode p src dst).
Proof. unfold off_encode. cbv zeta. agree. Qed.
#[local] Hint Resolve agrees_off_encode : builds.
Lemma agrees_pe_chunk sz len start m : agrees (fun p => pe_chunk p sz len start m).
Proof. unfold pe_chunk. cbv zeta. agree. Qed.
#[local] Hint Resolve agrees_pe_chunk : builds.
Lemma agrees_find_offset offs so m : forall i, agrees (fun p => find_offset p offs so m i).
Proof. induction offs as [|o offs IH]; intros i; cbn [find_offset]; agree. Qed.
#[local] Hint Resolve agrees_find_offset : builds.
Lemma agrees_be_chunk buf start m : agrees (fun p => be_chunk p buf start m).
Proof. unfold be_chunk. cbv zeta. agree. Qed.
#[local] Hint Resolve agrees_be_chunk : builds.
Lemma agrees_item_lens buf count : forall i, agrees (fun p => item_lens p buf i count).
Proof. induction count as [|count IH]; intros i; cbn [item_lens]; agree. Qed.
#[local] Hint Resolve agrees_item_lens : builds.
Lemma agrees_encode_binary buf c bit rle : agrees (fun p => encode_binary_buffer p buf c bit rle).
Proof. unfold encode_binary_buffer. cbv zeta. agree. Qed.
#[local] Hint Resolve agrees_encode_binary : builds.

(** ** Encoders *)

Section Sink.
Context {S : Type} (wr : sink_fn S).

Lemma agrees_pe_write sz e buf s0 e0 bit s : agrees (fun p => pe_write wr p sz e buf s0 e0 bit s).
Proof. unfold pe_write. cbv zeta. agree. Qed.
#[local] Hint Resolve agrees_pe_write : builds.
Lemma agrees_pe_write_remaining sz e s : agrees (fun p => pe_write_remaining wr p sz e s).
Proof. unfold pe_write_remaining. agree. Qed.
#[local] Hint Resolve agrees_pe_write_remaining : builds.
Lemma agrees_pe_loop sz buffer fuel : forall e bp vp s, agrees (fun p => pe_loop wr p sz fuel e buffer bp vp s).
Proof. induction fuel as [|fuel IH]; intros e bp vp s; cbn [pe_loop]; cbv zeta; agree. Qed.
#[local] Hint Resolve agrees_pe_loop : builds.
Lemma agrees_pe_encode sz fuel e buffer s : agrees (fun p => pe_encode wr p sz fuel e buffer s).
Proof. unfold pe_encode. cbv zeta. agree. Qed.
Lemma agrees_pe_flush sz e s : agrees (fun p => pe_flush wr p sz e s).
Proof. unfold pe_flush. agree. Qed.

Lemma agrees_be_write e buf c bit s : agrees (fun p => be_write wr p e buf c bit s).
Proof. unfold be_write. cbv zeta. agree. Qed.
#[local] Hint Resolve agrees_be_write : builds.
Lemma agrees_be_write_remaining e s : agrees (fun p => be_write_remaining wr p e s).
Proof. unfold be_write_remaining. cbv zeta. agree. Qed.
#[local] Hint Resolve agrees_be_write_remaining : builds.
Lemma agrees_be_loop buffer fuel : forall e bp vp s, agrees (fun p => be_loop wr p fuel e buffer bp vp s).
Proof. induction fuel as [|fuel IH]; intros e bp vp s; cbn [be_loop]; cbv zeta; agree. Qed.
#[local] Hint Resolve agrees_be_loop : builds.
Lemma agrees_be_encode fuel e buffer s : agrees (fun p => be_encode wr p fuel e buffer s).
Proof. unfold be_encode. cbv zeta. agree. Qed.
#[local] Hint Resolve agrees_be_encode : builds.
Lemma agrees_be_flush e s : agrees (fun p => be_flush wr p e s).
Proof. unfold be_flush. agree. Qed.
#[local] Hint Resolve agrees_be_flush : builds.
Lemma agrees_bin_encode e buffer s : agrees (fun p => bin_encode wr p e buffer s).
Proof. unfold bin_encode. cbv zeta. agree. Qed.
Lemma agrees_bin_flush e s : agrees (fun p => bin_flush wr p e s).
Proof. unfold bin_flush. cbv zeta. agree. Qed.
End Sink.
#[local] Hint Resolve agrees_bin_encode agrees_bin_flush : builds.

(** ** Segments *)

Lemma agrees_column_write w sg cw b : agrees (fun p => column_write p w sg cw b).
Proof. unfold column_write. agree. Qed.
#[local] Hint Resolve agrees_column_write : builds.
Lemma agrees_column_close w sg cw : agrees (fun p => column_close p w sg cw).
Proof. unfold column_close. cbv zeta. agree. Qed.
#[local] Hint Resolve agrees_column_close : builds.
Lemma agrees_column_step w sg cw o : agrees (fun p => column_step p w sg cw o).
Proof. unfold column_step. agree. Qed.
#[local] Hint Resolve agrees_column_step : builds.
Lemma agrees_column_run ops : forall w sg cw, agrees (fun p => column_run p w sg cw ops).
Proof. induction ops as [|o ops IH]; intros w sg cw; cbn [column_run]; agree. Qed.
#[local] Hint Resolve agrees_column_run : builds.
Lemma agrees_seg_step w sg o : agrees (fun p => seg_step p w sg o).
Proof. unfold seg_step. agree. Qed.
#[local] Hint Resolve agrees_seg_step : builds.
Lemma agrees_seg_run ops : forall w sg, agrees (fun p => seg_run p w sg ops).
Proof. induction ops as [|o ops IH]; intros w sg; cbn [seg_run]; agree. Qed.

Lemma agrees_encoder_run ops : forall e sofar, agrees (fun p => encoder_run p e ops sofar).
Proof. induction ops as [|[b|] ops IH]; intros e sofar; cbn [encoder_run]; agree. Qed.

(** * C64 *)

(** Segments: every sequence of calls, with every failure of the system. *)
Theorem C64_segments : forall w sg ops,
  seg_run Debug w sg ops = seg_run Release w sg ops \/ seg_run Debug w sg ops = Panic POverflow.
Proof. intros. apply (agrees_seg_run ops w sg). Qed.
Print Assumptions C64_segments.

(** Encoders: every state, buffer and sink. *)
Theorem C64_encoders : forall S (wr : sink_fn S) s,
  (forall sz fuel e buf, let f p := pe_encode wr p sz fuel e buf s in f Debug = f Release \/ f Debug = Panic POverflow)
  /\ (forall sz e, let f p := pe_flush wr p sz e s in f Debug = f Release \/ f Debug = Panic POverflow)
  /\ (forall e buf, let f p := bin_encode wr p e buf s in f Debug = f Release \/ f Debug = Panic POverflow)
  /\ (forall e, let f p := bin_flush wr p e s in f Debug = f Release \/ f Debug = Panic POverflow).
Proof.
  intros S wr s. split; [|split; [|split]]; intros; cbv zeta.
  - apply (agrees_pe_encode wr sz fuel e buf s).
  - apply (agrees_pe_flush wr sz e s).
  - apply (agrees_bin_encode wr e buf s).
  - apply (agrees_bin_flush wr e s).
Qed.
Print Assumptions C64_encoders.

(** Buffers. *)
Theorem C64_buffers : forall b buf s e vp v n,
  (let f p := bb_append_from p b buf s e vp in f Debug = f Release \/ f Debug = Panic POverflow)
  /\ (let f p := validity_has_nulls p v n in f Debug = f Release \/ f Debug = Panic POverflow).
Proof. intros b buf s e vp v n. split; [apply (agrees_append_from b buf s e vp)|apply (agrees_has_nulls v n)]. Qed.
Print Assumptions C64_buffers.

(** Number and validity codes. *)
Theorem C64_codes : forall bytes dst,
  (let f p := decode_varint p bytes in f Debug = f Release \/ f Debug = Panic POverflow)
  /\ (let f p := rle_decode p bytes dst in f Debug = f Release \/ f Debug = Panic POverflow)
  /\ (let f p := off_encode p bytes dst in f Debug = f Release \/ f Debug = Panic POverflow).
Proof.
  intros bytes dst. split; [apply (agrees_decode_varint bytes)|]. split; [apply (agrees_rle_decode bytes dst)|apply (agrees_off_encode bytes dst)].
Qed.
Print Assumptions C64_codes.

(** Reading: the check of the length of a range fires inside a task whose panic
    is turned into an error, but a range that needs it is an error anyway. *)
Theorem C64_reads : forall file plan s e, file_ok file -> (s < u64_lim)%N -> (e < u64_lim)%N ->
  read_block Debug file plan s e = read_block Release file plan s e.
Proof.
  intros file plan s e F Hs He. destruct (N.lt_ge_cases e s) as [L|L].
  - rewrite !C41_bad_range by auto. reflexivity.
  - unfold read_block, sub64, usub. apply N.leb_le in L. rewrite L. reflexivity.
Qed.
Print Assumptions C64_reads.

(** [round_upto_power_of_2] has an assertion besides; with it the builds agree
    on powers of two, and the first rejects all other factors. *)
Theorem C64_rounding : forall num factor,
  round_upto_power_of_2 Debug num factor = round_upto_power_of_2 Release num factor
  \/ round_upto_power_of_2 Debug num factor = Panic POverflow
  \/ (round_upto_power_of_2 Debug num factor = Panic PAssert /\ forall k, factor <> 2 ^ k)%N.
Proof.
  intros num factor. destruct ((0 <? factor) && (N.land factor (factor - 1) =? 0))%N eqn:A.
  - assert (G : agrees (fun p => round_upto_power_of_2 p num factor)).
    { unfold round_upto_power_of_2. apply agrees_bind; [left; rewrite A; reflexivity|intros _; agree]. }
    destruct G as [G|G]; auto.
  - right. right. split; [unfold round_upto_power_of_2; rewrite A; reflexivity|]. intros k ->.
    assert (P : (0 < 2 ^ k)%N) by (apply N.neq_0_lt_0, N.pow_nonzero; lia).
    apply Bool.andb_false_iff in A. destruct A as [A|A]; [apply N.ltb_ge in A; lia|]. apply N.eqb_neq in A. apply A.
    replace (2 ^ k - 1)%N with (N.ones k) by (rewrite N.ones_equiv; lia). rewrite N.land_ones. apply N.mod_same. lia.
Qed.
Print Assumptions C64_rounding.

(** So where no check fires the files are the same, for instance those of
    primitive columns that are not nullable and have a block size that is a
    multiple of the value size. *)
Theorem C64_same_blocks : forall sz B cap bufs rowss,
  2 <= sz -> (N.of_nat sz < 2 ^ 31)%N -> (0 < B < 2 ^ 32)%N -> N.of_nat (cap * sz) = B ->
  Forall2 (fun b rows => pb_holds b false rows) bufs rowss -> (total_rows rowss < 2 ^ 32 - 1)%N ->
  exists blocks, forall p, pe_column p sz B false bufs = Ret (blocks, Ok tt).
Proof.
  intros sz B cap bufs rowss Hs Hz HB HF HH HT.
  destruct (C31_never_panics_partial Debug sz B cap bufs rowss Hs Hz HB HF HH HT) as [blocks E].
  exists blocks. intros [|]; [exact E|].
  assert (G : agrees (fun p => pe_column p sz B false bufs)).
  { unfold pe_column, pe_finish. apply agrees_bind.
    - apply agrees_bind; [|intros [[e s] res]; agree; apply agrees_pe_flush].
      generalize (pe_new B false). generalize (@nil (N * list N)). clear. induction bufs as [|b bufs IH]; intros s e; cbn [pe_encodes]; [agree|].
      apply agrees_bind; [apply agrees_pe_encode|]. intros [[e1 s1] res]. destruct res; [apply IH|agree].
    - intros [[? ?] ?]. agree. }
  destruct G as [G|G]; congruence.
Qed.
Print Assumptions C64_same_blocks.

(** The exception is real: here only the first build notices. *)
Example C64_difference_witness :
  pe_column_rows Debug 4 5 false [[Some 1]; [Some 2]; [Some 3]]%N = Panic POverflow
  /\ exists blocks, pe_column_rows Release 4 5 false [[Some 1]; [Some 2]; [Some 3]]%N = Ret (blocks, Ok tt).
Proof. split; [vm_compute; reflexivity|]. eexists. vm_compute. reflexivity. Qed.

Example C64_agreement_witness :
  exists blocks, blocks <> [] /\ forall p, be_column_rows p 4 true [[Some [1; 2]; None]; [Some [3; 4; 5]; Some [6]]]%N = Ret (blocks, Ok tt).
Proof.
  destruct (be_column_rows Debug 4 true [[Some [1; 2]; None]; [Some [3; 4; 5]; Some [6]]]%N) as [[blocks res]|k|] eqn:E; vm_compute in E; inversion E; subst.
  eexists. split; [|intros [|]; vm_compute; reflexivity]. discriminate.
Qed.
