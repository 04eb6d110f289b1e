(** C91: the memory an encoder keeps between calls (raw/primitive_enc.rs,
    raw/binary_enc.rs). *)
From Verif Require Import Base BaseProofs Spec Varint VarintProofs Buffers Rle Offsets Util Sink PrimEnc BinEnc Observe ObserveEnc
  PropsBinPending PropsPieces.
Open Scope nat_scope.

(** * What the parts of an encoder keep *)

Lemma varint_ten vec v r : put_varint vec v = Ret r -> length vec <= length r <= length vec + 10.
Proof.
  unfold put_varint. intros H. apply bind_inv in H. destruct H as ([buf n] & E & H). apply bind_inv in H. destruct H as (s & Es & H). injection H as <-.
  cbn [fst snd] in Es. unfold slice in Es. destruct (Nat.leb_spec 0 n) as [L1|L1]; [|lia]. destruct (Nat.leb_spec n (length buf)) as [L2|L2]; cbn [andb] in Es; [|discriminate Es].
  injection Es as <-. rewrite app_length, firstn_length. cbn [skipn].
  assert (K : forall fuel v buf i buf' n, encode_varint_loop fuel v buf i = Ret (buf', n) -> length buf' = length buf).
  { clear. induction fuel as [|fuel IH]; intros v buf i buf' n H; cbn [encode_varint_loop] in H; [discriminate H|].
    assert (U : forall (l : list N) i x l', upd l i x = Ret l' -> length l' = length l).
    { clear. intros l i x l'. unfold upd. destruct (i <? length l); [|discriminate]. intros X. injection X as <-. revert i. induction l as [|y l IH]; intros [|i]; cbn [set_nth length]; auto. }
    destruct (0x80 <=? v)%N; apply bind_inv in H; destruct H as (b1 & E1 & H); apply U in E1; [apply IH in H; congruence|]. injection H as <- <-. exact E1. }
  unfold encode_varint in E. apply K in E. rewrite repeat_length in E. unfold MAX_VARINT_LEN in E. rewrite E in L2. rewrite E. lia.
Qed.

(** The bytes of a bitmap encoder. *)
Definition rle_bytes (e : rle_enc) : nat := length (re_out e) + length (re_buffer e).

Lemma emit_literal_bytes e n e' : rle_emit_literal e n = Ret e' ->
  re_buffer e' = re_buffer e /\ re_bit_pos e' = re_bit_pos e /\ re_byte e' = re_byte e /\ length (re_out e') <= length (re_out e) + 10 + n
  /\ n <= length (re_buffer e) \/ e' = e.
Proof.
  unfold rle_emit_literal. destruct (re_buffer e) as [|x l] eqn:EB; [intros H; injection H as <-; right; reflexivity|].
  intros H. left. apply bind_inv in H. destruct H as (out & E1 & H). apply bind_inv in H. destruct H as (lit & E2 & H). injection H as <-.
  apply varint_ten in E1. unfold slice in E2. destruct (Nat.leb_spec 0 n) as [L1|L1]; [|lia]. destruct (Nat.leb_spec n (length (x :: l))) as [L2|L2]; cbn [andb] in E2; [|discriminate E2].
  injection E2 as <-. unfold set_out. cbn [re_buffer re_bit_pos re_byte re_out]. rewrite app_length, firstn_length. repeat split; auto. lia.
Qed.

Lemma emit_run_bytes e n v e' : rle_emit_run e n v = Ret e' ->
  re_buffer e' = re_buffer e /\ re_bit_pos e' = re_bit_pos e /\ length (re_out e') <= length (re_out e) + 11.
Proof.
  unfold rle_emit_run. intros H. apply bind_inv in H. destruct H as (out & E1 & H). injection H as <-. apply varint_ten in E1.
  unfold set_out. cbn [re_buffer re_bit_pos re_out]. rewrite app_length. cbn [length]. repeat split; auto. lia.
Qed.

Ltac fields := unfold rle_to_literal, set_out, set_buffer, set_run, set_last, set_bits in *; cbn [re_out re_buffer re_bit_pos re_byte re_repeat re_last re_run_start re_state] in *.

Lemma append_bytes e v e' : rle_append e v = Ret e' -> rle_bytes e' <= rle_bytes e + 12 /\ re_bit_pos e' = re_bit_pos e.
Proof.
  unfold rle_append. intros H. apply bind_inv in H. destruct H as (e1 & E & H). injection H as <-.
  assert (G : rle_bytes e1 <= rle_bytes e + 12 /\ re_bit_pos e1 = re_bit_pos e); [|unfold rle_bytes in *; fields; exact G].
  unfold rle_bytes. destruct (re_state e).
  - injection E as <-. fields. rewrite app_length. cbn [length]. lia.
  - destruct (re_last e =? v)%N.
    + destruct (re_buffer e) eqn:EB; [discriminate E|]. rewrite bind_ret in E. injection E as <-. fields. rewrite EB, app_length. cbn [length]. lia.
    + rewrite bind_ret in E. injection E as <-. fields. rewrite app_length. cbn [length]. lia.
  - fields. destruct (negb (re_last e =? v)%N).
    + injection E as <-. fields. rewrite app_length. cbn [length]. lia.
    + destruct (re_repeat e + 1 =? MIN_RUN_LEN).
      * apply bind_inv in E. destruct E as (e2 & E2 & E). injection E as <-. fields. cbn [length].
        destruct (0 <? re_run_start e); [|injection E2 as <-; fields; lia].
        apply emit_literal_bytes in E2. destruct E2 as [(_ & B & _ & O & L)| ->]; fields; [|lia]. rewrite app_length in L. cbn [length] in L. split; [lia|exact B].
      * injection E as <-. fields. rewrite app_length. cbn [length]. lia.
  - destruct (negb (re_last e =? v)%N).
    + apply bind_inv in E. destruct E as (e2 & E2 & E). injection E as <-. fields. apply emit_run_bytes in E2. destruct E2 as (B & P & O). rewrite B, app_length. cbn [length]. split; [lia|exact P].
    + injection E as <-. fields. lia.
Qed.

Lemma put_bytes e b e' : rle_put e b = Ret e' -> re_bit_pos e <= 7 ->
  8 * rle_bytes e' + 12 * re_bit_pos e' <= 8 * rle_bytes e + 12 * re_bit_pos e + 12 /\ re_bit_pos e' <= 7.
Proof.
  unfold rle_put. intros H Q. apply bind_inv in H. destruct H as (byte & _ & H). destruct (Nat.eqb_spec (re_bit_pos e + 1) 8) as [E|E].
  - apply bind_inv in H. destruct H as (e1 & E1 & H). injection H as <-. apply append_bytes in E1. unfold rle_bytes in *. fields. lia.
  - injection H as <-. unfold rle_bytes. fields. lia.
Qed.

Lemma put_from_bytes src n : forall fuel e items pos e' pos', rle_put_from_loop fuel e src items pos n = Ret (e', pos') -> re_bit_pos e <= 7 ->
  8 * rle_bytes e' + 12 * re_bit_pos e' <= 8 * rle_bytes e + 12 * re_bit_pos e + 12 * (pos' - pos) /\ re_bit_pos e' <= 7
  /\ pos <= pos' /\ (pos' = pos \/ pos' <= bm_len src).
Proof.
  induction fuel as [|fuel IH]; intros e items pos e' pos' H Q; cbn [rle_put_from_loop] in H; [discriminate H|].
  destruct (items <? n).
  - apply bind_inv in H. destruct H as (bit & E1 & H). apply bind_inv in H. destruct H as (e1 & E2 & H). apply put_bytes in E2; [|exact Q]. destruct E2 as [E2 Q1].
    apply IH in H; [|exact Q1]. unfold bm_is_set in E1. destruct (Nat.ltb_spec pos (bm_len src)) as [L|L]; [|discriminate E1]. lia.
  - injection H as <- <-. lia.
Qed.

Lemma flush_bytes e e' : rle_flush e = Ret e' -> rle_bytes e' <= 2 * rle_bytes e + 35.
Proof.
  unfold rle_flush. intros H. apply bind_inv in H. destruct H as (e1 & E1 & H).
  assert (G : rle_bytes e1 <= rle_bytes e + 12) by (destruct (0 <? re_bit_pos e); [apply append_bytes in E1; lia|injection E1 as <-; lia]).
  unfold rle_bytes in *. destruct (re_state e1).
  - injection H as <-. lia.
  - apply emit_literal_bytes in H. destruct H as [(B & _ & _ & O & _)| ->]; [rewrite B; lia|lia].
  - apply emit_literal_bytes in H. destruct H as [(B & _ & _ & O & _)| ->]; [rewrite B; lia|lia].
  - apply emit_run_bytes in H. destruct H as (B & _ & O). rewrite B. lia.
Qed.

(** The validity of a block: three bytes per bit at most. *)
Lemma window_bytes rle src start n e1 pos e2 : rle_put_from (rle_clear rle) src start n = Ret (e1, pos) -> rle_flush e1 = Ret e2 ->
  rle_bytes e2 <= 3 * bm_len src + 35.
Proof.
  intros H F. unfold rle_put_from in H. apply put_from_bytes in H; [|cbn; lia]. apply flush_bytes in F. destruct H as (H & _ & _ & P).
  unfold rle_clear in H. unfold rle_bytes in H at 2. cbn [re_out re_buffer re_bit_pos length] in H. lia.
Qed.

(** A bitmap of at most [k] bits takes what [C90_bitmap_memory] says. *)
Definition lean (k : nat) (v : option bitmap) : Prop :=
  match v with None => True | Some b => enough 1024 (bm_len b) b /\ 1024 <= length (bm_values b) /\ bm_len b <= k end.

Definition bits (v : option bitmap) : nat := match v with None => 0 | Some b => bm_len b end.
Definition bitmap_bytes (v : option bitmap) : nat := match v with None => 0 | Some b => length (bm_values b) end.

Lemma lean_bytes k v : lean k v -> bitmap_bytes v <= 1024 + k /\ bits v <= k.
Proof. destruct v as [b|]; cbn [lean bitmap_bytes bits]; [|lia]. unfold enough. generalize 1024. lia. Qed.

Lemma lean_new nl : lean 0 (new_validity nl).
Proof. destruct nl; cbn [new_validity lean]; [|exact I]. unfold bm_new, enough. cbn [bm_len bm_values]. rewrite repeat_length. unfold INITIAL_BITMAP_CAP. lia. Qed.

Lemma lean_clear k v : lean k v -> lean 0 (option_map bm_clear v).
Proof. destruct v as [b|]; cbn [option_map lean]; [|auto]. intros _. unfold bm_clear, enough. cbn [bm_len bm_values]. rewrite resize_length. unfold INITIAL_BITMAP_CAP. lia. Qed.

Lemma copy_lean src n : forall fuel b items pos b' pos', bm_append_from_loop fuel b src items pos n = Ret (b', pos') ->
  enough 1024 (bm_len b) b -> 1024 <= length (bm_values b) ->
  enough 1024 (bm_len b') b' /\ 1024 <= length (bm_values b') /\ bm_len b' = bm_len b + (pos' - pos) /\ pos <= pos' /\ (pos' = pos \/ pos' <= bm_len src)
  /\ (n <= items -> pos' = pos).
Proof.
  induction fuel as [|fuel IH]; intros b items pos b' pos' H E L; cbn [bm_append_from_loop] in H; [discriminate H|].
  destruct (Nat.ltb_spec items n) as [LT|GE].
  - apply bind_inv in H. destruct H as (bit & E1 & H). apply bind_inv in H. destruct H as (b1 & E2 & H).
    destruct (append_enough 1024 b bit (bm_len b) ltac:(lia) E L) as (b1' & E2' & E' & L'). rewrite E2 in E2'. injection E2' as <-.
    pose proof E' as (LL & _). unfold bm_is_set in E1. destruct (Nat.ltb_spec pos (bm_len src)) as [P|P]; [|discriminate E1].
    apply IH in H; [|rewrite LL; exact E'|exact L']. destruct H as (H1 & H2 & H3 & H4 & H5 & _). split; [exact H1|]. split; [exact H2|]. lia.
  - injection H as <- <-. split; [exact E|]. split; [exact L|]. lia.
Qed.

(** Copying [n] values takes no more bits than the source has. *)
Lemma validity_lean k dst src pos n r M : validity_append_from dst src pos n = Ret r -> lean (k * M) dst -> bits src <= M -> lean ((k + n) * M) (fst r).
Proof.
  unfold validity_append_from. intros H L B. destruct src as [src|].
  - destruct dst as [dst|]; [|discriminate H]. apply bind_inv in H. destruct H as ([b' q] & E & H). injection H as <-. cbn [fst]. unfold bm_append_from in E.
    cbn [lean bits] in *. destruct L as (L1 & L2 & L3). apply copy_lean in E; [|exact L1|exact L2]. destruct E as (E1 & E2 & E3 & E4 & E5 & E6).
    split; [exact E1|]. split; [exact E2|]. destruct n as [|n]; [rewrite (E6 ltac:(lia)) in E3; rewrite Nat.add_0_r; lia|]. rewrite E3. nia.
  - destruct dst as [dst|]; [discriminate H|]. injection H as <-. exact I.
Qed.

(** * Fixed-width columns *)

Section Fixed.
Context {S : Type} (wr : sink_fn S) (p : profile) (sz : nat).

(** All bytes of the vectors of an encoder. *)
Definition pe_kept (e : prim_enc) : nat :=
  sz * length (pb_values (pe_remaining e)) + bitmap_bytes (pb_validity (pe_remaining e)) + length (pe_encoded e) + rle_bytes (pe_bitmap e).

(** No more than [M] values and [M] validity bits. *)
Definition pb_up_to (M : nat) (b : prim_buf N) : Prop := length (pb_values b) <= M /\ bits (pb_validity b) <= M.

(** After a successful call: [B] is the block size. *)
Definition pe_lean (B M : nat) (e : prim_enc) : Prop :=
  pe_min e = N.of_nat B /\ length (pb_values (pe_remaining e)) < B /\ lean (length (pb_values (pe_remaining e)) * M) (pb_validity (pe_remaining e))
  /\ length (pe_encoded e) <= 45 + (sz + 3 * M) * (B + M) /\ rle_bytes (pe_bitmap e) <= 35 + 3 * M * (B + M).

Lemma flat_bytes l : length (to_byte_slice sz l) = sz * length l.
Proof.
  unfold to_byte_slice. induction l as [|x l IH]; cbn [flat_map length]; [lia|]. rewrite app_length, IH.
  assert (K : forall s v, length (le_bytes s v) = s) by (clear; induction s; intros v; cbn [le_bytes length]; auto). rewrite K. lia.
Qed.

(** A block of at most [V] values and [W] bits. *)
Lemma pe_write_kept e buf start end_ pos s e' s' r V W : pe_write wr p sz e buf start end_ pos s = Ret (e', s', r) ->
  length (pb_values buf) <= V -> bits (pb_validity buf) <= W ->
  pe_remaining e' = pe_remaining e /\ pe_min e' = pe_min e
  /\ length (pe_encoded e') <= 45 + sz * V + 3 * W /\ (rle_bytes (pe_bitmap e') <= 3 * W + 35 \/ pe_bitmap e' = pe_bitmap e).
Proof.
  unfold pe_write. intros H HV HW. apply bind_inv in H. destruct H as ([[enc rle] [nr lv]] & E & H). apply bind_inv in H. destruct H as (rows & _ & H).
  apply bind_inv in H. destruct H as (id & _ & H). injection H as <- _ _. cbn [pe_remaining pe_min pe_encoded pe_bitmap]. split; [reflexivity|]. split; [reflexivity|].
  unfold encode_primitive_buffer in E. apply bind_inv in E. destruct E as (hd & E1 & E). apply bind_inv in E. destruct E as (vals & E2 & E).
  apply varint_ten in E1. cbn [length] in E1. unfold slice in E2. destruct (_ && _) in E2; [|discriminate E2]. injection E2 as <-.
  destruct (pb_validity buf) as [v|].
  - apply bind_inv in E. destruct E as ([r1 q] & E3 & E). apply bind_inv in E. destruct E as (r2 & E4 & E). injection E as <- <- _ _. cbn [fst snd bits] in *.
    pose proof (window_bytes _ _ _ _ _ _ _ E3 E4) as K. unfold rle_bytes in K. split; [|left; unfold rle_bytes; lia].
    rewrite !app_length, flat_bytes, firstn_length, skipn_length. nia.
  - injection E as <- <- _ _. split; [|right; reflexivity]. rewrite !app_length, flat_bytes, firstn_length, skipn_length. nia.
Qed.

Lemma pe_loop_kept B M buf : 0 < sz -> pb_up_to M buf -> forall fuel e pos vpos s e' s', pe_lean B M e -> length (pb_values (pe_remaining e)) = 0 ->
  pe_loop wr p sz fuel e buf pos vpos s = Ret (e', s', Ok tt) -> pe_lean B M e'.
Proof.
  intros Z (U1 & U2). induction fuel as [|fuel IH]; intros e pos vpos s e' s' I E0 H; cbn [pe_loop] in H; [discriminate H|].
  destruct (pos <? pb_len buf); [|injection H as <- <-; exact I].
  apply bind_inv in H. destruct H as (ce & EC & H). pose proof I as (I1 & I2 & I3 & I4 & I5).
  destruct (N.ltb_spec (N.of_nat ((ce - pos) * sz)) (pe_min e)) as [L|L].
  - apply bind_inv in H. destruct H as ([b q] & EA & H). injection H as <- _. cbn [fst]. unfold pe_lean, pe_set_remaining. cbn [pe_remaining pe_min pe_encoded pe_bitmap].
    unfold pb_append_from in EA. apply bind_inv in EA. destruct EA as (ch & E1 & EA). destruct (_ <? _)%N in EA; [|discriminate EA].
    apply bind_inv in EA. destruct EA as (va & E2 & EA). injection EA as <- _. cbn [pb_values pb_validity].
    unfold slice in E1. destruct (Nat.leb_spec pos ce) as [L1|L1]; cbn [andb] in E1; [|discriminate E1]. destruct (Nat.leb_spec ce (length (pb_values buf))) as [L2|L2]; [|discriminate E1].
    injection E1 as <-. rewrite E0 in I3. apply (validity_lean 0 _ _ _ _ _ M) in E2; [|exact I3|exact U2].
    rewrite app_length, firstn_length, skipn_length, E0. replace (0 + Nat.min (ce - pos) (length (pb_values buf) - pos)) with (ce - pos) by lia. cbn [Nat.add] in E2.
    rewrite I1 in L. split; [exact I1|]. split; [nia|]. split; [exact E2|]. split; [exact I4|exact I5].
  - apply bind_inv in H. destruct H as ([[e1 s1] res] & EW & H). destruct res as [lv|]; [|discriminate H].
    destruct (pe_write_kept _ _ _ _ _ _ _ _ _ M M EW U1 U2) as (W1 & W2 & W3 & W4).
    eapply IH; [|rewrite W1; exact E0|exact H]. unfold pe_lean. rewrite W1, W2. split; [exact I1|]. split; [exact I2|]. split; [exact I3|].
    split; [nia|]. destruct W4 as [W4|W4]; [nia|rewrite W4; exact I5].
Qed.

Lemma pe_encode_kept B M buf fuel e s e' s' : 0 < sz -> pb_up_to M buf -> pe_lean B M e -> pe_encode wr p sz fuel e buf s = Ret (e', s', Ok tt) -> pe_lean B M e'.
Proof.
  intros Z U I H. pose proof U as (U1 & U2). pose proof I as (I1 & I2 & I3 & I4 & I5). unfold pe_encode in H.
  destruct (Nat.ltb_spec 0 (pb_len (pe_remaining e))) as [P|P].
  - apply bind_inv in H. destruct H as (want & _ & H). apply bind_inv in H. destruct H as (ce & EC & H). apply bind_inv in H. destruct H as ([b q] & EA & H). cbn [fst snd] in H.
    unfold pb_append_from in EA. apply bind_inv in EA. destruct EA as (ch & E1 & EA). destruct (_ <? _)%N in EA; [|discriminate EA].
    apply bind_inv in EA. destruct EA as (va & E2 & EA). injection EA as <- _.
    unfold slice in E1. destruct (Nat.leb_spec 0 ce) as [L1|L1]; cbn [andb] in E1; [|discriminate E1]. destruct (Nat.leb_spec ce (length (pb_values buf))) as [L2|L2]; [|discriminate E1].
    injection E1 as <-. pose proof (validity_lean _ _ _ _ _ _ M E2 I3 U2) as E3.
    set (b := mk_prim (pb_values (pe_remaining e) ++ firstn (ce - 0) (pb_values buf)) (fst va)) in *.
    assert (LB : length (pb_values b) = length (pb_values (pe_remaining e)) + (ce - 0)) by (unfold b; cbn [pb_values]; rewrite app_length, firstn_length; lia).
    assert (E4 : lean (length (pb_values b) * M) (pb_validity b)) by (rewrite LB; exact E3).
    cbn [pe_set_remaining pe_remaining pe_min] in H. unfold pb_len in H.
    destruct (N.ltb_spec (N.of_nat (length (pb_values b))) (pe_min e)) as [L|L].
    + injection H as <- _. unfold pe_lean, pe_set_remaining. cbn [pe_remaining pe_min pe_encoded pe_bitmap]. rewrite I1 in L. split; [exact I1|]. split; [lia|]. auto.
    + apply bind_inv in H. destruct H as ([[e1 s1] res] & EW & H). destruct res as [lv|]; [|discriminate H].
      unfold pe_write_remaining in EW. cbn [pe_set_remaining pe_remaining] in EW.
      destruct (lean_bytes _ _ E4) as [_ BB].
      destruct (pe_write_kept _ _ _ _ _ _ _ _ _ (B + M) (M * (B + M)) EW) as (W1 & W2 & W3 & W4); [lia|nia|].
      cbn [pe_set_remaining pe_remaining pe_min pe_bitmap] in W1, W2, W4.
      apply (pe_loop_kept B M) in H; [exact H|exact Z|exact U| |reflexivity].
      unfold pe_lean, pe_set_remaining. cbn [pe_remaining pe_min pe_encoded pe_bitmap pb_clear pb_values pb_validity length].
      split; [rewrite W2; exact I1|]. split; [lia|]. split; [rewrite W1; eapply lean_clear; exact E4|]. split; [nia|]. destruct W4 as [W4|W4]; [nia|rewrite W4; exact I5].
  - apply (pe_loop_kept B M) in H; [exact H|exact Z|exact U|exact I|unfold pb_len in P; lia].
Qed.

(** The memory kept after any number of buffers is bounded by the block size [B]
    and the largest buffer, as long as no write fails. *)
Theorem C91_fixed_width_partial : forall B M nl bufs s e s', 0 < sz -> 0 < B -> Forall (pb_up_to M) bufs ->
  pe_encodes wr p sz (pe_new (N.of_nat B) nl) bufs s = Ret (e, s', Ok tt) ->
  pe_kept e <= 1104 + (2 * sz + 7 * M) * (B + M) /\ sz * length (pb_values (pe_remaining e)) < sz * B.
Proof.
  intros B M nl bufs s e s' Z PB F H.
  assert (G : forall bufs e0 s e s', Forall (pb_up_to M) bufs -> pe_lean B M e0 -> pe_encodes wr p sz e0 bufs s = Ret (e, s', Ok tt) -> pe_lean B M e).
  { clear -Z. induction bufs as [|b bufs IH]; intros e0 s e s' F I H; cbn [pe_encodes] in H; [injection H as <- _; exact I|].
    apply Forall_cons_iff in F. destruct F as [F1 F2]. apply bind_inv in H. destruct H as ([[e1 s1] [[]|]] & E & H); [|discriminate H].
    eapply IH; [exact F2| |exact H]. eapply pe_encode_kept; eassumption. }
  apply G in H; [|exact F|].
  - destruct H as (_ & I2 & I3 & I4 & I5). destruct (lean_bytes _ _ I3) as [K _]. unfold pe_kept. split; [nia|nia].
  - unfold pe_lean, pe_new. cbn [pe_remaining pe_min pe_encoded pe_bitmap pb_new pb_values pb_validity length]. split; [reflexivity|]. split; [exact PB|]. split; [apply lean_new|].
    split; [lia|]. unfold rle_new, rle_bytes. cbn [re_out re_buffer length]. lia.
Qed.
End Fixed.
Print Assumptions C91_fixed_width_partial.

(** * Binary columns *)

Section Binary.
Context {S : Type} (wr : sink_fn S) (p : profile).

(** All bytes of the vectors of an encoder; an offset takes four.  (The vector of
    item lengths is not in the model: it has at most 128 of them after a block.) *)
Definition be_kept (e : bin_enc) : nat :=
  length (bb_data (be_remaining e)) + 4 * length (bb_offsets (be_remaining e)) + bitmap_bytes (bb_validity (be_remaining e))
  + length (be_encoded e) + rle_bytes (be_bitmap e).

(** At most [M] bytes and [M] validity bits; offsets are of type u32, and every
    item has at least one byte. *)
Definition bb_up_to (M : nat) (b : bin_buf) : Prop :=
  length (bb_data b) <= M /\ bits (bb_validity b) <= M /\ Forall (fun o => o < 2 ^ 32)%N (bb_offsets b) /\ length (bb_offsets b) <= M + 1
  /\ forall i x y, nth_error (bb_offsets b) i = Some x -> nth_error (bb_offsets b) (Datatypes.S i) = Some y -> (x < y)%N.

Lemma items_cost b M i j x y : bb_up_to M b -> nth_error (bb_offsets b) i = Some x -> nth_error (bb_offsets b) j = Some y -> i <= j -> (N.of_nat (j - i) + x <= y)%N.
Proof.
  intros (_ & _ & _ & _ & R) X Y L. remember (j - i) as d eqn:D. revert j y Y L D. induction d as [|d IH]; intros j y Y L D.
  - replace j with i in Y by lia. rewrite X in Y. injection Y as <-. lia.
  - destruct j as [|j]; [lia|]. destruct (nth_error (bb_offsets b) j) as [z|] eqn:Z.
    + specialize (IH j z Z ltac:(lia) ltac:(lia)). specialize (R j z y Z Y). lia.
    + apply nth_error_None in Z. assert (Datatypes.S j < length (bb_offsets b)) by (apply nth_error_Some; rewrite Y; discriminate). lia.
Qed.

Definition be_lean (B M : nat) (e : bin_enc) : Prop :=
  be_min e = N.of_nat B /\ length (bb_data (be_remaining e)) < B
  /\ 0 < length (bb_offsets (be_remaining e)) <= length (bb_data (be_remaining e)) + 1
  /\ Forall (fun o => o < 2 ^ 32)%N (bb_offsets (be_remaining e))
  /\ lean (bb_len (be_remaining e) * M) (bb_validity (be_remaining e))
  /\ length (be_encoded e) <= 60 + (5 + 3 * M) * (B + M) /\ rle_bytes (be_bitmap e) <= 35 + 3 * M * (B + M).

Lemma idx_nth {A} (l : list A) i x : idx l i = Ret x -> nth_error l i = Some x.
Proof. unfold idx. destruct (nth_error l i); [intros H; injection H as <-; reflexivity|discriminate]. Qed.

Lemma add32_lim a b c : add32 p a b = Ret c -> (c < 2 ^ 32)%N.
Proof.
  unfold add32, uadd. change (2 ^ 32)%N with u32_lim. destruct (N.ltb_spec (a + b) u32_lim) as [L|L]; [intros H; injection H as <-; exact L|].
  destruct p; [discriminate|]. intros H. injection H as <-. apply N.mod_lt. discriminate.
Qed.

Lemma sub32_lim a b c : sub32 p a b = Ret c -> (a < 2 ^ 32)%N -> (c < 2 ^ 32)%N.
Proof.
  unfold sub32, usub. change (2 ^ 32)%N with u32_lim. destruct (N.leb_spec b a) as [L|L]; [intros H; injection H as <-; lia|].
  destruct p; [discriminate|]. intros H. injection H as <-. lia.
Qed.

Lemma push_lim buf : forall count i last offs offs', bb_push_offsets p buf i count last offs = Ret offs' ->
  Forall (fun o => o < 2 ^ 32)%N offs -> Forall (fun o => o < 2 ^ 32)%N offs'.
Proof.
  induction count as [|count IH]; intros i last offs offs' H F; cbn [bb_push_offsets] in H; [injection H as <-; exact F|].
  apply bind_inv in H. destruct H as (l & _ & H). apply bind_inv in H. destruct H as (o & E & H). apply IH in H; [exact H|].
  apply Forall_app. split; [exact F|]. constructor; [|constructor]. eapply add32_lim. exact E.
Qed.

(** Copying items to the held back ones. *)
Lemma bb_append_lean b buf start end_ pos r M : bb_append_from p b buf start end_ pos = Ret r -> bb_up_to M buf ->
  0 < length (bb_offsets b) <= length (bb_data b) + 1 -> Forall (fun o => o < 2 ^ 32)%N (bb_offsets b) -> lean (bb_len b * M) (bb_validity b) ->
  let b' := fst r in
  0 < length (bb_offsets b') <= length (bb_data b') + 1 /\ Forall (fun o => o < 2 ^ 32)%N (bb_offsets b') /\ lean (bb_len b' * M) (bb_validity b')
  /\ length (bb_data b') <= length (bb_data b) + M.
Proof.
  intros H U O F L. pose proof H as D. apply append_from_data in D. destruct D as (so & eo & D1 & D2 & D3 & D4 & D5).
  pose proof U as (U1 & U2 & U3 & U4 & U5). unfold bb_append_from in H. rewrite D1, D2 in H. cbn [bind] in H.
  apply bind_inv in H. destruct H as (cl & E1 & H). apply bind_inv in H. destruct H as (offs & E2 & H). apply bind_inv in H. destruct H as (ch & E3 & H).
  destruct (_ <? _)%N in H; [|discriminate H]. apply bind_inv in H. destruct H as (va & E4 & H). injection H as <-. cbv zeta. cbn [fst bb_data bb_offsets bb_validity] in *.
  apply push_lim in E2; [|exact F].
  assert (LE : start <= end_).
  { destruct (Nat.le_gt_cases start end_) as [X|X]; [exact X|]. pose proof (items_cost _ _ _ _ _ _ U (idx_nth _ _ _ D2) (idx_nth _ _ _ D1) ltac:(lia)). lia. }
  pose proof (items_cost _ _ _ _ _ _ U (idx_nth _ _ _ D1) (idx_nth _ _ _ D2) LE) as IC.
  assert (CL : N.to_nat cl = end_ - start).
  { unfold sub64, usub in E1. destruct (N.leb_spec (N.of_nat start) (N.of_nat end_)) as [X|X]; [injection E1 as <-; lia|lia]. }
  rewrite CL in E4. apply (validity_lean (bb_len b) _ _ _ _ _ M) in E4; [|exact L|exact U2].
  unfold slice in E3. destruct (_ <=? _) in E3; cbn [andb] in E3; [|discriminate E3]. destruct (Nat.leb_spec (N.to_nat eo) (length (bb_data buf))) as [X|X]; [|discriminate E3].
  split; [lia|]. split; [exact E2|]. split; [|lia].
  replace (bb_len (mk_bin (bb_data b ++ ch) offs (fst va))) with (bb_len b + (end_ - start)); [exact E4|]. unfold bb_len. cbn [bb_offsets]. lia.
Qed.

Lemma lens_lim buf : Forall (fun o => o < 2 ^ 32)%N (bb_offsets buf) -> forall count i ls, item_lens p buf i count = Ret ls -> length ls = count /\ Forall (fun o => o < 2 ^ 32)%N ls.
Proof.
  intros F. induction count as [|count IH]; intros i ls H; cbn [item_lens] in H; [injection H as <-; split; [reflexivity|constructor]|].
  apply bind_inv in H. destruct H as (l & E & H). apply bind_inv in H. destruct H as (rest & E2 & H). injection H as <-. apply IH in E2. destruct E2 as [E2 E3].
  split; [cbn [length]; lia|]. constructor; [|exact E3]. unfold bb_item_len in E. apply bind_inv in E. destruct E as (hi & H1 & E). apply bind_inv in E. destruct E as (lo & _ & E).
  eapply sub32_lim; [exact E|]. apply idx_nth in H1. apply nth_error_In in H1. rewrite Forall_forall in F. apply F. exact H1.
Qed.

Lemma off_encode_bytes src dst r : off_encode p src dst = Ret r -> Forall (fun o => o < 2 ^ 32)%N src -> length (snd r) <= length dst + 2 + 4 * length src.
Proof.
  unfold off_encode. intros H F. apply bind_inv in H. destruct H as (lp & _ & H). apply bind_inv in H. destruct H as (b & E & H). apply bind_inv in H. destruct H as (d & _ & H).
  injection H as <-. cbn [snd]. rewrite resize_length, app_length. cbn [length].
  assert (B : b <= 32).
  { unfold bp_num_bits in E. destruct (_ =? _) in E; [|discriminate E]. injection E as <-.
    assert (K : forall l, Forall (fun o => o < 2 ^ 32)%N l -> (fold_right N.lor 0 l < 2 ^ 32)%N).
    { clear. induction 1 as [|x l X _ IH]; cbn [fold_right]; [reflexivity|].
      destruct (N.eq_dec (N.lor x (fold_right N.lor 0%N l)) 0) as [->|NZ]; [reflexivity|]. apply N.log2_lt_pow2; [lia|]. rewrite N.log2_lor.
      assert (LG : forall y, (y < 2 ^ 32)%N -> (N.log2 y < 32)%N) by (intros y Y; destruct (N.eq_dec y 0) as [->|]; [reflexivity|]; apply N.log2_lt_pow2; [lia|exact Y]).
      apply N.max_lub_lt; apply LG; assumption. }
    assert (F2 : Forall (fun o => o < 2 ^ 32)%N (resize src (N.to_nat lp) 0%N)).
    { unfold resize. apply Forall_app. split; [apply Forall_forall; intros x X; rewrite Forall_forall in F; apply F; rewrite <- (firstn_skipn (N.to_nat lp) src); apply in_or_app; left; exact X|].
      apply Forall_forall. intros x X. apply repeat_spec in X. subst x. reflexivity. }
    specialize (K _ F2). set (y := fold_right N.lor 0%N (resize src (N.to_nat lp) 0%N)) in *. destruct (N.eq_dec y 0) as [->|NZ]; [cbn; lia|].
    rewrite N.size_log2 by exact NZ. apply N.log2_lt_pow2 in K; [|lia]. lia. }
  assert (C : (ceil8 (N.of_nat (b * length src)) <= 4 * N.of_nat (length src) + 1)%N); [|lia].
  unfold ceil8. assert (D : (N.of_nat (b * length src) / 8 <= 4 * N.of_nat (length src))%N) by (apply N.div_le_upper_bound; nia). destruct (_ =? 0)%N; lia.
Qed.

Lemma be_write_kept e buf c pos s e' s' r V W Q : be_write wr p e buf c pos s = Ret (e', s', r) ->
  length (bb_data buf) <= V -> bits (bb_validity buf) <= W -> bc_end c - bc_start c <= Q -> Forall (fun o => o < 2 ^ 32)%N (bb_offsets buf) ->
  be_remaining e' = be_remaining e /\ be_min e' = be_min e
  /\ length (be_encoded e') <= 47 + V + 4 * Q + 3 * W /\ (rle_bytes (be_bitmap e') <= 3 * W + 35 \/ be_bitmap e' = be_bitmap e).
Proof.
  unfold be_write. intros H HV HW HQ HF. apply bind_inv in H. destruct H as ([[enc rle] [nr lv]] & E & H). apply bind_inv in H. destruct H as (rows & _ & H).
  apply bind_inv in H. destruct H as (id & _ & H). injection H as <- _ _. cbn [be_remaining be_min be_encoded be_bitmap]. split; [reflexivity|]. split; [reflexivity|].
  unfold encode_binary_buffer in E. apply bind_inv in E. destruct E as (hd & E1 & E). apply bind_inv in E. destruct E as (data & E2 & E).
  apply bind_inv in E. destruct E as (ds & E3 & E). apply bind_inv in E. destruct E as (oe & E4 & E).
  apply varint_ten in E1. cbn [length] in E1. unfold slice in E2. destruct (_ && _) in E2; [|discriminate E2]. injection E2 as <-.
  apply lens_lim in E3; [|exact HF]. destruct E3 as [E3 E5]. apply off_encode_bytes in E4; [|exact E5]. rewrite app_length, firstn_length, skipn_length in E4.
  destruct (bb_validity buf) as [v|].
  - apply bind_inv in E. destruct E as ([r1 q] & E6 & E). apply bind_inv in E. destruct E as (r2 & E7 & E). injection E as <- <- _ _. cbn [fst snd bits] in *.
    pose proof (window_bytes _ _ _ _ _ _ _ E6 E7) as K. unfold rle_bytes in K. split; [|left; unfold rle_bytes; lia]. rewrite app_length. lia.
  - injection E as <- <- _ _. split; [|right; reflexivity]. lia.
Qed.

Lemma chunk_end buf start m c : be_chunk p buf start m = Ret c -> bc_start c = start /\ bc_end c < length (bb_offsets buf).
Proof.
  unfold be_chunk. intros H. apply bind_inv in H. destruct H as (so & E1 & H). apply bind_inv in H. destruct H as (fo & E2 & H). apply bind_inv in H. destruct H as ([ep eo] & E3 & H).
  apply bind_inv in H. destruct H as (size & _ & H). apply bind_inv in H. destruct H as (len & _ & H). injection H as <-. cbn [bc_start bc_end]. split; [reflexivity|].
  assert (LO : start < length (bb_offsets buf)) by (apply idx_nth in E1; apply nth_error_Some; rewrite E1; discriminate).
  destruct fo as [[i o]|]; [|apply bind_inv in E3; destruct E3 as (o & _ & E3); injection E3 as <- _; lia]. injection E3 as <- _.
  assert (K : forall offs i0 i o, find_offset p offs so m i0 = Ret (Some (i, o)) -> i < i0 + length offs).
  { clear. induction offs as [|x offs IH]; intros i0 i o H; cbn [find_offset] in H; [discriminate H|]. apply bind_inv in H. destruct H as (d & _ & H).
    destruct (m <=? d)%N; [injection H as <- _; cbn [length]; lia|]. apply IH in H. cbn [length]. lia. }
  apply K in E2. rewrite skipn_length in E2. lia.
Qed.

Lemma be_loop_kept B M buf : bb_up_to M buf -> forall fuel e pos vpos s e' s', be_lean B M e -> length (bb_data (be_remaining e)) = 0 ->
  be_loop wr p fuel e buf pos vpos s = Ret (e', s', Ok tt) -> be_lean B M e'.
Proof.
  intros U. pose proof U as (U1 & U2 & U3 & U4 & U5). induction fuel as [|fuel IH]; intros e pos vpos s e' s' I E0 H; cbn [be_loop] in H; [discriminate H|].
  destruct (pos <? length (bb_offsets buf)); [|injection H as <- <-; exact I].
  apply bind_inv in H. destruct H as (c & EC & H). pose proof I as (I1 & I2 & I3 & I4 & I5 & I6 & I7).
  destruct (N.ltb_spec (bc_size c) (be_min e)) as [L|L].
  - apply bind_inv in H. destruct H as (r & EA & H). injection H as <- _. pose proof (bb_append_lean _ _ _ _ _ _ _ EA U I3 I4 I5) as (A1 & A2 & A3 & _).
    unfold be_lean, be_set_remaining. cbn [be_remaining be_min be_encoded be_bitmap]. split; [exact I1|]. split; [|auto].
    destruct (chunk_small _ _ _ _ _ EC L) as (C1 & C2 & C3 & so & eo & C4 & C5 & C6). apply append_from_data in EA. destruct EA as (so' & eo' & D1 & D2 & D3 & D4 & _).
    rewrite C1, C4 in D1. injection D1 as <-. rewrite C5 in D2. injection D2 as <-. unfold sub32, usub in C6. apply N.leb_le in D3. rewrite D3 in C6. injection C6 as C6. lia.
  - apply bind_inv in H. destruct H as ([[e1 s1] res] & EW & H). destruct res as [lv|]; [|discriminate H]. apply chunk_end in EC. destruct EC as [_ EC].
    destruct (be_write_kept _ _ _ _ _ _ _ _ M M M EW U1 U2 ltac:(lia) U3) as (W1 & W2 & W3 & W4).
    eapply IH; [|rewrite W1; exact E0|exact H]. unfold be_lean. rewrite W1, W2. split; [exact I1|]. split; [exact I2|]. split; [exact I3|]. split; [exact I4|]. split; [exact I5|].
    split; [nia|]. destruct W4 as [W4|W4]; [nia|rewrite W4; exact I7].
Qed.

Lemma be_encode_kept B M buf fuel e s e' s' : bb_up_to M buf -> tidy e -> be_lean B M e -> be_encode wr p fuel e buf s = Ret (e', s', Ok tt) -> be_lean B M e'.
Proof.
  intros U T I H. pose proof U as (U1 & U2 & U3 & U4 & U5). pose proof I as (I1 & I2 & I3 & I4 & I5 & I6 & I7). unfold be_encode in H.
  destruct (Nat.ltb_spec 0 (bb_len (be_remaining e))) as [P|P].
  - apply bind_inv in H. destruct H as (want & _ & H). apply bind_inv in H. destruct H as (c & EC & H). apply bind_inv in H. destruct H as (r & EA & H).
    pose proof (bb_append_lean _ _ _ _ _ _ _ EA U I3 I4 I5) as (A1 & A2 & A3 & A4). cbn [be_set_remaining be_remaining be_min] in H.
    destruct (N.ltb_spec (N.of_nat (length (bb_data (fst r)))) (be_min e)) as [L|L].
    + injection H as <- _. unfold be_lean, be_set_remaining. cbn [be_remaining be_min be_encoded be_bitmap]. rewrite I1 in L. split; [exact I1|]. split; [lia|]. auto 10.
    + apply bind_inv in H. destruct H as ([[e1 s1] res] & EW & H). destruct res as [lv|]; [|discriminate H].
      unfold be_write_remaining in EW. cbn [be_set_remaining be_remaining] in EW. apply bind_inv in EW. destruct EW as (eo & _ & EW).
      destruct (lean_bytes _ _ A3) as [_ BB]. unfold bb_len in BB.
      destruct (be_write_kept _ _ _ _ _ _ _ _ (B + M) (M * (B + M)) (B + M) EW) as (W1 & W2 & W3 & W4); [lia|nia|cbn [bc_end bc_start]; lia|exact A2|].
      cbn [be_set_remaining be_remaining be_min be_bitmap] in W1, W2, W4.
      apply (be_loop_kept B M) in H; [exact H|exact U| |reflexivity].
      unfold be_lean, be_set_remaining. cbn [be_remaining be_min be_encoded be_bitmap bb_clear bb_data bb_offsets bb_validity length].
      split; [rewrite W2; exact I1|]. split; [lia|]. rewrite W1. split; [rewrite firstn_length; lia|].
      split; [destruct (bb_offsets (fst r)); [constructor|]; cbn [firstn]; constructor; [inversion A2; assumption|constructor]|].
      split. { replace (bb_len (bb_clear (fst r))) with 0; [eapply lean_clear; exact A3|]. unfold bb_len, bb_clear. cbn [bb_offsets]. rewrite firstn_length. lia. }
      split; [nia|]. destruct W4 as [W4|W4]; [nia|rewrite W4; exact I7].
  - apply (be_loop_kept B M) in H; [exact H|exact U|exact I|]. destruct T as [_ T]. rewrite (T ltac:(lia)). reflexivity.
Qed.

(** The same bound for binary columns, if no item is empty: the memory kept
    after any number of buffers depends on the block size [B] and the largest
    buffer only. *)
Theorem C91_binary_partial : forall B M nl bufs s e s', 0 < B -> Forall (bb_up_to M) bufs ->
  be_encodes wr p (be_new (N.of_nat B) nl) bufs s = Ret (e, s', Ok tt) ->
  be_kept e <= 1124 + (10 + 7 * M) * (B + M) /\ length (bb_offsets (be_remaining e)) <= B.
Proof.
  intros B M nl bufs s e s' PB F H.
  assert (G : forall bufs e0 s e s', Forall (bb_up_to M) bufs -> tidy e0 -> be_lean B M e0 -> be_encodes wr p e0 bufs s = Ret (e, s', Ok tt) -> be_lean B M e).
  { clear -PB. induction bufs as [|b bufs IH]; intros e0 s e s' F T I H; cbn [be_encodes] in H; [injection H as <- _; exact I|].
    apply Forall_cons_iff in F. destruct F as [F1 F2]. apply bind_inv in H. destruct H as ([[e1 s1] [[]|]] & E & H); [|discriminate H].
    pose proof I as (I1 & _). pose proof E as E'. apply be_encode_pending in E'; [|rewrite I1; lia|exact T]. destruct E' as (_ & T1 & _).
    eapply IH; [exact F2|exact T1| |exact H]. exact (be_encode_kept _ _ _ _ _ _ _ _ F1 T I E). }
  apply G in H; [|exact F| |].
  - destruct H as (_ & I2 & I3 & _ & I4 & I5 & I6). destruct (lean_bytes _ _ I4) as [K _]. unfold bb_len in K. unfold be_kept. split; [|lia].
    assert ((length (bb_offsets (be_remaining e)) - 1) * M <= B * M) by (apply Nat.mul_le_mono_r; lia). nia.
  - split; [cbn; lia|reflexivity].
  - unfold be_lean, be_new. cbn [be_remaining be_min be_encoded be_bitmap bb_new bb_data bb_offsets bb_validity length]. split; [reflexivity|]. split; [exact PB|]. split; [lia|].
    split; [constructor; [reflexivity|constructor]|]. split; [apply lean_new|]. split; [lia|]. unfold rle_new, rle_bytes. cbn [re_out re_buffer length]. lia.
Qed.
End Binary.
Print Assumptions C91_binary_partial.

(** Empty items: the encoder keeps the offset of every one of them, however
    small the buffers. *)
Definition empty_item : bin_buf := mk_bin [] [0; 0]%N None.

Lemma empty_encode {S} (wr : sink_fn S) p B n e (s : S) : (0 < B)%N -> be_min e = B -> be_remaining e = mk_bin [] (repeat 0%N (Datatypes.S n)) None ->
  exists e', be_encode wr p 2 e empty_item s = Ret (e', s, Ok tt) /\ be_min e' = B /\ be_remaining e' = mk_bin [] (repeat 0%N (Datatypes.S (Datatypes.S n))) None.
Proof.
  intros HB M R.
  assert (C : be_chunk p empty_item 0 B = Ret (mk_bchunk 0 1 0 0 0 1)).
  { unfold be_chunk, empty_item. cbn [bb_offsets idx nth_error bind skipn length find_offset]. destruct (N.leb_spec B (0 - 0)) as [X|X]; [lia|].
    assert (Z : sub32 p 0 0 = Ret 0%N) by reflexivity. rewrite Z. cbn [bind]. destruct (N.leb_spec B 0) as [Y|Y]; [lia|]. reflexivity. }
  assert (A : bb_append_from p (be_remaining e) empty_item 0 1 0 = Ret (mk_bin [] (repeat 0%N (Datatypes.S (Datatypes.S n))) None, 1)).
  { rewrite R. unfold bb_append_from, empty_item. cbn [bb_offsets bb_data bb_validity idx nth_error bind].
    assert (LZ : last (repeat 0%N (Datatypes.S n)) 0%N = 0%N) by (clear; induction n as [|n IH]; [reflexivity|]; cbn [repeat] in *; exact IH). rewrite LZ.
    assert (SN : repeat 0%N (Datatypes.S n) ++ [0%N] = repeat 0%N (Datatypes.S (Datatypes.S n))) by (clear; induction n as [|n IH]; [reflexivity|]; cbn [repeat app] in *; rewrite IH; reflexivity).
    assert (P : bb_push_offsets p (mk_bin [] [0; 0]%N None) 0 (1 - 0) 0 (repeat 0%N (Datatypes.S n)) = Ret (repeat 0%N (Datatypes.S (Datatypes.S n)))).
    { cbn [Nat.sub bb_push_offsets]. assert (I0 : bb_item_len p (mk_bin [] [0; 0]%N None) 0 = Ret 0%N) by reflexivity. rewrite I0. cbn [bind].
      assert (A0 : add32 p 0 0 = Ret 0%N) by reflexivity. rewrite A0. cbn [bind]. rewrite SN. reflexivity. }
    assert (S1 : sub64 p (N.of_nat 1) (N.of_nat 0) = Ret 1%N) by reflexivity. rewrite S1. cbn [bind]. rewrite P. reflexivity. }
  exists (be_set_remaining e (mk_bin [] (repeat 0%N (Datatypes.S (Datatypes.S n))) None)). split; [|split; [exact M|reflexivity]].
  assert (LT : (0 <? B)%N = true) by (apply N.ltb_lt; exact HB).
  unfold be_encode. destruct (Nat.ltb_spec 0 (bb_len (be_remaining e))) as [L|L].
  - rewrite R, M. cbn [bb_data length]. assert (S1 : sub64 p B (N.of_nat 0) = Ret B) by (unfold sub64, usub; change (N.of_nat 0) with 0%N; destruct (N.leb_spec 0 B); [rewrite N.sub_0_r; reflexivity|lia]).
    rewrite S1. cbn [bind]. rewrite C. cbn [bind bc_start bc_end]. rewrite <- R, A. cbn [bind fst snd be_set_remaining be_remaining be_min bb_data length]. change (N.of_nat 0) with 0%N. rewrite M, LT. reflexivity.
  - cbn [be_loop]. assert (L2 : (0 <? length (bb_offsets empty_item)) = true) by reflexivity. rewrite L2, M, C. cbn [bind bc_size bc_start bc_end]. rewrite LT, A. reflexivity.
Qed.

Lemma empty_encodes {S} (wr : sink_fn S) p B : (0 < B)%N -> forall n m e (s : S), be_min e = B -> be_remaining e = mk_bin [] (repeat 0%N (Datatypes.S m)) None ->
  exists e', be_encodes wr p e (repeat empty_item n) s = Ret (e', s, Ok tt) /\ be_remaining e' = mk_bin [] (repeat 0%N (Datatypes.S (n + m))) None.
Proof.
  intros HB. induction n as [|n IH]; intros m e s M R; cbn [repeat be_encodes].
  - exists e. split; [reflexivity|exact R].
  - destruct (empty_encode wr p B m e s HB M R) as (e1 & E & M1 & R1). assert (L2 : length (bb_offsets empty_item) = 2) by reflexivity. rewrite L2, E. cbn [bind].
    destruct (IH (Datatypes.S m) e1 s M1 R1) as (e' & E' & R'). exists e'. split; [exact E'|]. rewrite R'. do 2 f_equal. cbn [Nat.add]. rewrite Nat.add_succ_r. reflexivity.
Qed.

(** With empty items there is no bound: for every sink, build and block size. *)
Theorem C91_binary_refuted : forall S (wr : sink_fn S) p B (s : S), (0 < B)%N ->
  forall n, exists e, be_encodes wr p (be_new B false) (repeat empty_item n) s = Ret (e, s, Ok tt) /\ 4 * n < be_kept e
    /\ bb_append_rows (bb_new false) [Some []] = Ret empty_item.
Proof.
  intros S wr p B s HB n. destruct (empty_encodes wr p B HB n 0 (be_new B false) s eq_refl eq_refl) as (e & E & R).
  exists e. split; [exact E|]. split; [|reflexivity]. unfold be_kept. rewrite R. cbn [bb_offsets bb_data length]. rewrite repeat_length. lia.
Qed.
Print Assumptions C91_binary_refuted.

(** * After failed writes *)

Definition fails : sink_fn unit := fun s _ _ => (s, Err).

(** Calls of [encode] that go on after a failed one. *)
Fixpoint pe_tries {S} (wr : sink_fn S) (p : profile) (sz : nat) (e : prim_enc) (bufs : list (prim_buf N)) (s : S)
  : outcome (prim_enc * S * list (result unit)) :=
  match bufs with
  | [] => Ret (e, s, [])
  | b :: rest =>
      let* r := pe_encode wr p sz (Datatypes.S (pb_len b)) e b s in
      let '(e, s, res) := r in
      let* r := pe_tries wr p sz e rest s in
      let '(e, s, ress) := r in Ret (e, s, res :: ress)
  end.

Definition one_value : prim_buf N := mk_prim [7%N] None.

(** The bound of [C91_fixed_width_partial] does not hold if calls go on after a
    failed write and overflows go unnoticed: nothing is written, and every value
    of every buffer is kept. *)
Theorem C91_after_errors_refuted :
  pb_up_to 1 one_value /\
  match pe_tries fails Release 8 (pe_new 9 false) (repeat one_value 100) tt with
  | Ret (e, _, results) => length (pb_values (pe_remaining e)) = 100 /\ results = repeat (Ok tt) 8 ++ repeat Err 92
      /\ (1104 + (2 * 8 + 7 * 1) * (9 + 1) < N.of_nat (pe_kept 8 e))%N
  | _ => False end.
Proof. split; [split; cbn; lia|]. vm_compute. repeat split. Qed.
Print Assumptions C91_after_errors_refuted.

(** A hundred buffers, each with nine nulls and a value, at block size 128: a
    thousand validity bits are kept, and less after 300 buffers, when blocks have
    been written.  The same values in a binary column. *)
Definition sparse : list (option N) := repeat None 9 ++ [Some 5%N].
Definition sparse_bin : list (option (list N)) := repeat None 9 ++ [Some [5%N]].

Example C91_witness :
  match pb_append_rows (pb_new true) sparse, bb_append_rows (bb_new true) sparse_bin with
  | Ret b, Ret bb =>
      pb_up_to 10 b /\ bb_up_to 10 bb
      /\ Forall (fun n => match pe_encodes collect Debug 1 (pe_new 128 true) (repeat b (fst n)) [], be_encodes collect Debug (be_new 128 true) (repeat bb (fst n)) [] with
         | Ret (e, _, Ok tt), Ret (be, _, Ok tt) =>
             (N.of_nat (bits (pb_validity (pe_remaining e))), N.of_nat (pe_kept 1 e), N.of_nat (bits (bb_validity (be_remaining be))), N.of_nat (be_kept be)) = snd n
         | _, _ => False end) [(100, (1000, 1124, 1000, 1528)%N); (300, (440, 1682, 440, 1879)%N)]
  | _, _ => False end.
Proof.
  destruct (pb_append_rows (pb_new true) sparse) as [b|k|] eqn:E; [|vm_compute in E; discriminate E..].
  destruct (bb_append_rows (bb_new true) sparse_bin) as [bb|k|] eqn:E2; [|vm_compute in E2; discriminate E2..].
  vm_compute in E, E2. injection E as <-. injection E2 as <-. split; [|split].
  - split; cbn [pb_values pb_validity bits bm_len length]; lia.
  - unfold bb_up_to. cbn [bb_data bb_offsets bb_validity bits bm_len length]. split; [lia|]. split; [lia|]. split; [repeat constructor|]. split; [lia|].
    intros [|[|i]] x y X Y; cbn [nth_error] in X, Y; try discriminate Y; try discriminate X. injection X as <-. injection Y as <-. reflexivity.
  - constructor; [vm_compute; reflexivity|]. constructor; [vm_compute; reflexivity|]. constructor.
Qed.
