(** Property C33 for binary columns whose panics are caught and whose failed writes
    are passed over (raw/binary_enc.rs). *)
From Verif Require Import Base BaseProofs Spec SpecRows SpecBin Varint VarintProofs Buffers Observe BitmapProofs BuffersProofs
  Rle Offsets Sink BinEnc ObserveEnc RowsProofs BlockProofs BinBlockProofs BinEncProofs BinRunProofs PropsBinPending PropsBinFail
  Caught PropsCaughtBuf PropsCaughtEnc PropsCaughtBin.
Open Scope nat_scope.

Lemma write_keeps {S} (wr : sink_fn S) p e buf c pos s :
  be_remaining (fst (fst (be_write_at wr p e buf c pos s))) = be_remaining e /\ be_min (fst (fst (be_write_at wr p e buf c pos s))) = be_min e.
Proof.
  unfold be_write_at. destruct (encode_binary_buffer _ _ _ _ _) as [[[enc rle] [n lv]]|k|]; cbn [pure fst]; [|auto..].
  destruct (be_add_rows _ _) as [rows|k|]; cbn [pure fst]; [|auto..]. destruct (sub32 _ _ _) as [id|k|]; cbn [pure fst be_remaining be_min]; auto.
Qed.

Lemma flush_keeps {S} (wr : sink_fn S) p e s :
  be_remaining (fst (fst (be_flush_at wr p e s))) = be_remaining e /\ be_min (fst (fst (be_flush_at wr p e s))) = be_min e.
Proof.
  unfold be_flush_at. destruct (0 <? _); [|auto]. cbn zeta. unfold be_write_remaining_at. cbn zeta.
  destruct (idx _ _) as [o|k|]; cbn [pure fst snd]; [|auto..].
  match goal with |- context [be_write_at wr p e ?b ?c ?x s] => pose proof (write_keeps wr p e b c x s) as W; destruct (be_write_at wr p e b c x s) as [[e1 s1] [res|k|]] end; cbn [pure fst snd] in *; exact W.
Qed.

(** C33, when it fails for good: with overflow checks, once more data than a block is
    held back every encode panics and changes nothing, whatever is called.  A flush
    may write the data, but keeps it too. *)
Theorem C33_stuck_partial : forall (S : Type) (wr : sink_fn S) e s calls,
  0 < bb_len (be_remaining e) -> (be_min e < N.of_nat (length (bb_data (be_remaining e))))%N ->
  let r := enc_anyway wr Debug (e, s) calls in
  be_remaining (fst (fst r)) = be_remaining e
  /\ Forall2 (fun c o => match c with Encode _ => o = Panic POverflow | Flush => True end) calls (snd r)
  /\ (Forall (fun c => c <> Flush) calls -> fst r = (e, s)).
Proof.
  intros S wr e s calls. revert e s. induction calls as [|c calls IH]; intros e s L M; cbn [enc_anyway fst snd].
  { split; [reflexivity|]. split; [constructor|reflexivity]. }
  assert (K : be_remaining (fst (fst (enc_step wr Debug (e, s) c))) = be_remaining e /\ be_min (fst (fst (enc_step wr Debug (e, s) c))) = be_min e
    /\ match c with Encode _ => enc_step wr Debug (e, s) c = ((e, s), Panic POverflow) | Flush => True end).
  { destruct c as [buf|]; cbn [enc_step fst snd].
    - assert (E : be_encode_at wr Debug (length (bb_offsets buf)) e buf s = ((e, s), Panic POverflow)).
      { unfold be_encode_at. destruct (Nat.ltb_spec 0 (bb_len (be_remaining e))); [|lia].
        unfold sub64, usub. destruct (N.leb_spec (N.of_nat (length (bb_data (be_remaining e)))) (be_min e)); [lia|]. reflexivity. }
      rewrite E. auto.
    - destruct (flush_keeps wr Debug e s). auto. }
  destruct K as (K1 & K2 & K3). destruct (enc_step wr Debug (e, s) c) as [[e1 s1] out]. cbn [fst snd] in *.
  destruct (IH e1 s1) as (I1 & I2 & I3); [rewrite K1; exact L|rewrite K1, K2; exact M|].
  split; [rewrite I1; exact K1|]. split; [constructor; [destruct c; [congruence|exact I]|exact I2]|].
  intros F. inversion F as [|? ? F1 F2]; subst. rewrite (I3 F2). destruct c; [congruence|contradiction].
Qed.
Print Assumptions C33_stuck_partial.

(** C33 for every history, panics included: whenever an encode succeeds, less data
    than a block is held back, and so it stays whatever is flushed. *)
Theorem C33_caught_partial : forall (S : Type) (wr : sink_fn S) p B nullable calls cs buf b n s,
  (0 < B < 2 ^ 32)%N -> Forall2 (brings_rows nullable) calls cs -> bb_holds buf nullable b ->
  (N.of_nat (length (calls_rows cs) + length b) <= 2 ^ 32 - 2)%N -> (N.of_nat (bytes_of (calls_rows cs) + bytes_of b) < 2 ^ 32 - 1)%N ->
  let before := fst (enc_anyway wr p (be_new B nullable, s) calls) in
  let after := enc_step wr p before (Encode buf) in
  snd after = Ret (Ok tt) ->
  (N.of_nat (length (bb_data (be_remaining (fst (fst (enc_anyway wr p (fst after) (repeat Flush n))))))) < B)%N.
Proof.
  intros S wr p B nl calls cs buf b n s HB HG HH HL HBy. change (2 ^ 32 - 2)%N with 4294967294%N in *. change (2 ^ 32 - 1)%N with 4294967295%N in *. change (2 ^ 32)%N with 4294967296%N in *.
  pose proof (items_run wr p B nl calls cs ltac:(unfold u32_max; lia) HG (be_new B nl) (mk_bs [] [] 0) s (be_inv_new B nl)) as X.
  cbn [bs_held length Nat.add] in X. change (bytes_of (@nil row)) with 0 in X. change (2 ^ 32 - 2)%N with 4294967294%N in X. specialize (X ltac:(lia) ltac:(unfold u32_max; cbn [Nat.add]; lia)). cbn zeta.
  destruct (items_calls wr p nl B (mk_bs [] [] 0) s cs) as [[st s'] outs]. destruct X as (e & -> & I & _). cbn [fst snd enc_step].
  assert (T : tidy e).
  { destruct (be_inv_len _ _ _ _ _ _ I) as (L1 & _). split; [destruct I as (_ & -> & _); rewrite running_length; lia|].
    rewrite L1. destruct I as (-> & _). unfold num_vals. destruct (somes (bs_held st)); [reflexivity|discriminate]. }
  assert (M : be_min e = B) by apply I. pose proof (be_encode_same wr p (length (bb_offsets buf)) e buf s') as Q. unfold uncaught, known in Q.
  destruct (be_encode_at wr p (length (bb_offsets buf)) e buf s') as [[e1 s1] out]. cbn [fst snd] in *. intros ->.
  apply be_encode_pending in Q; [|rewrite M; lia|exact T]. destruct Q as (_ & _ & [Q|[Q _]]); [|discriminate]. rewrite M in Q.
  clear -Q. revert e1 s1 Q. induction n as [|n IH]; intros e1 s1 Q; cbn [repeat enc_anyway fst snd enc_step]; [exact Q|].
  destruct (flush_keeps wr p e1 s1) as [F _]. destruct (be_flush_at wr p e1 s1) as [[e2 s2] out]. cbn [fst snd] in *. apply IH. rewrite F. exact Q.
Qed.
Print Assumptions C33_caught_partial.

(** A block size of 2 and a sink that refuses the first block: three bytes are held
    back for ever.  Without overflow checks the next buffer with values succeeds. *)
Definition three_bytes : list enc_call := map (fun r => Encode (items_of false r)) [[Some [1]]; [Some [2; 3]]]%N.

Example C33_stuck_example :
  let x := fst (enc_anyway (refuses 0) Debug (be_new 2 false, []) three_bytes) in
  bb_len (be_remaining (fst x)) = 2 /\ (be_min (fst x), bb_data (be_remaining (fst x))) = (2, [1; 2; 3])%N
  /\ snd (enc_anyway (refuses 0) Debug x [Encode (items_of false [Some [4%N]]); Flush; Encode (items_of false [Some [4%N]])]) = [Panic POverflow; Ret (Ok tt); Panic POverflow].
Proof. vm_compute. repeat split. Qed.

Example C33_caught_example :
  let x := fst (enc_anyway (refuses 0) Release (be_new 2 false, []) three_bytes) in
  let y := enc_step (refuses 0) Release x (Encode (items_of false [Some [4%N]])) in
  bb_data (be_remaining (fst x)) = [1; 2; 3]%N /\ snd y = Ret (Ok tt) /\ bb_data (be_remaining (fst (fst y))) = [].
Proof. vm_compute. repeat split. Qed.
