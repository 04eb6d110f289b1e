(** C95: a column that is closed and then written to again. *)
From Verif Require Import Base BaseProofs Spec SpecRows SpecBin Varint VarintProofs Buffers Observe BitmapProofs BuffersProofs
  Rle RleProofs RleTrackProofs Offsets OffsetsProofs PropsOffsets Sink PrimEnc BinEnc ObserveEnc ReadBlock ReadBinBlock RowsProofs BlockProofs PrimEncProofs PrimRunProofs
  PropsPrim PropsPrimRows PropsPrimIds PropsRle BinBlockProofs BinEncProofs BinRunProofs PropsBin PropsBinRows PropsBinExact PropsBinPending
  Io SpecIo IoProofs IoReadProofs PropsIo Metadata SpecProto Names PropsNames Segment SpecSegment SegmentProofs SegmentRunProofs PropsSegment PropsSegmentEx PropsSegmentRef.
Open Scope nat_scope.

(** * Vocabulary *)

(** The number of the next row after these blocks. *)
Definition next_row (blocks : list (N * list N)) : N := match rev blocks with [] => 0%N | b :: _ => (fst b + 1)%N end.

(** The same blocks [d] rows later. *)
Definition later (d : N) (blocks : list (N * list N)) : list (N * list N) := map (fun b => (fst b + d, snd b)%N) blocks.

Lemma next_row_snoc l b : next_row (l ++ [b]) = (fst b + 1)%N.
Proof. unfold next_row. rewrite rev_app_distr. reflexivity. Qed.

Lemma later_app d a b : later d (a ++ b) = later d a ++ later d b.
Proof. apply map_app. Qed.

Lemma later_0 l : later 0 l = l.
Proof. induction l as [|[id b] l IH]; [reflexivity|]. cbn [later map fst snd]. rewrite N.add_0_r. f_equal. exact IH. Qed.

(** * Blocks have rows *)

Lemma put_from_moves : forall fuel e src items pos n e' k, rle_put_from_loop fuel e src items pos n = Ret (e', k) -> pos <= k /\ (items < n -> pos < k).
Proof.
  induction fuel as [|fuel IH]; intros e src items pos n e' k H; cbn [rle_put_from_loop] in H; [discriminate H|].
  destruct (Nat.ltb_spec items n) as [L|L]; [|injection H as _ <-; lia].
  destruct (bm_is_set src pos) as [bit|x|]; cbn [bind] in H; try discriminate H.
  destruct (rle_put e bit) as [e1|x|]; cbn [bind] in H; try discriminate H. apply IH in H. lia.
Qed.

Lemma off_encode_none p dst x : off_encode p [] dst <> Ret x.
Proof. unfold off_encode. cbn. destruct p; cbn; discriminate. Qed.

Lemma encode_rows p buf c bp a enc rle n lv : encode_binary_buffer p buf c bp a = Ret (enc, rle, (n, lv)) ->
  bc_start c < bc_end c /\ (0 < N.to_nat (bc_len c) -> 0 < n).
Proof.
  unfold encode_binary_buffer. intros H. destruct (put_varint [] (bc_size c)) as [h|x|]; cbn [bind] in H; try discriminate H.
  destruct (slice _ _ _) as [data|x|]; cbn [bind] in H; try discriminate H.
  destruct (Nat.ltb_spec (bc_start c) (bc_end c)) as [L|L].
  2:{ replace (bc_end c - bc_start c) with 0 in H by lia. cbn [item_lens bind] in H.
      destruct (off_encode p [] (h ++ data)) as [o|x|] eqn:E; cbn [bind] in H; try discriminate H. apply off_encode_none in E. destruct E. }
  split; [exact L|]. intros P.
  destruct (item_lens _ _ _ _) as [ds|x|]; cbn [bind] in H; try discriminate H.
  destruct (off_encode _ _ _) as [o|x|]; cbn [bind] in H; try discriminate H.
  destruct (bb_validity buf) as [v|]; [|injection H as _ _ <- _; exact P].
  unfold rle_put_from in H. destruct (rle_put_from_loop _ _ v 0 bp _) as [[a1 k]|x|] eqn:PA; cbn [bind fst snd] in H; try discriminate H.
  destruct (rle_flush a1) as [a2|x|]; cbn [bind] in H; try discriminate H. injection H as _ _ <- _. apply put_from_moves in PA. lia.
Qed.

(** * Two encoders, one of which is ahead of the other *)

Section Follow.
(** [rows e] is the number of rows [e] has counted; [beh d e e']: [e'] has counted
    [d] more and will do the same otherwise. *)
Context {Enc : Type} (rows : Enc -> N) (beh : N -> Enc -> Enc -> Prop).

(** The second run does what the first does, with [d] added to all row
    identifiers, unless the row count exceeds 32 bits. *)
Definition follows {X} (d : N) (e : Enc) (acc acc' : list (N * list N)) (o o' : outcome (Enc * list (N * list N) * result X)) : Prop :=
  match o with
  | Ret (e1, acc1, r) =>
      exists bl, acc1 = acc ++ bl
        /\ (forall l, next_row l = rows e -> next_row (l ++ bl) = rows e1) /\ (rows e <= rows e1)%N
        /\ (rows e <= u32_max -> rows e1 <= u32_max)%N
        /\ if (rows e + d <=? u32_max)%N
           then if (rows e1 + d <=? u32_max)%N then exists e1', o' = Ret (e1', acc' ++ later d bl, r) /\ beh d e1 e1' else o' = Panic PExpect
           else True
  | _ => forall x, o' <> Ret x
  end.

(** Nothing written. *)
Lemma follows_ret {X} d e acc acc' e1 e1' (r : result X) : rows e1 = rows e -> beh d e1 e1' ->
  follows d e acc acc' (Ret (e1, acc, r)) (Ret (e1', acc', r)).
Proof.
  intros E B. cbn [follows]. exists []. rewrite app_nil_r. split; [reflexivity|]. split; [intros l NL; rewrite app_nil_r; congruence|].
  split; [lia|]. split; [lia|]. rewrite E. destruct (rows e + d <=? u32_max)%N; [|exact I]. exists e1'. cbn [later map]. rewrite app_nil_r. auto.
Qed.

Lemma follows_from {X} d e e2 acc acc' (o o' : outcome (Enc * list (N * list N) * result X)) :
  rows e2 = rows e -> follows d e acc acc' o o' -> follows d e2 acc acc' o o'.
Proof. intros E. unfold follows. rewrite E. auto. Qed.

Context (beh0 : forall e, beh 0%N e e).

(** The rest of the run follows once the beginning does. *)
Lemma follows_bind {X Y} d e acc acc' (o o' : outcome (Enc * list (N * list N) * result X))
  (f : Enc * list (N * list N) * result X -> outcome (Enc * list (N * list N) * result Y)) :
  (rows e + d <= u32_max)%N -> follows d e acc acc' o o' ->
  (forall d0 e1 e1' acc1 acc0 r, o = Ret (e1, acc1, r) -> (rows e1 + d0 <= u32_max)%N -> beh d0 e1 e1' ->
     follows d0 e1 acc1 acc0 (f (e1, acc1, r)) (f (e1', acc0, r))) ->
  follows d e acc acc' (bind o f) (bind o' f).
Proof.
  intros HD F G. destruct o as [[[e1 acc1] r]|x|]; cbn [bind] in *.
  2,3: cbn [follows] in F |- *; intros y K; destruct o' as [z|z|]; cbn [bind] in K; try discriminate K; apply (F z); reflexivity.
  cbn [follows] in F. destruct F as (bl & -> & NX & LE & UB & F).
  destruct (N.leb_spec (rows e + d) u32_max) as [L|L]; [|lia].
  assert (U1 : (rows e1 <= u32_max)%N) by (apply UB; lia).
  destruct (N.leb_spec (rows e1 + d) u32_max) as [L1|L1].
  - destruct F as (e1' & -> & BH). cbn [bind]. specialize (G d e1 e1' _ (acc' ++ later d bl) r eq_refl L1 BH). unfold follows in G |- *.
    destruct (f (e1, acc ++ bl, r)) as [[[e2 acc2] r2]|x|]; [|exact G|exact G].
    destruct G as (bl2 & -> & NX2 & LE2 & UB2 & G). exists (bl ++ bl2). rewrite app_assoc. split; [reflexivity|].
    split; [intros l NL; rewrite app_assoc; apply NX2, NX, NL|]. split; [lia|]. split; [intros; apply UB2, U1|].
    destruct (N.leb_spec (rows e + d) u32_max); [|exact I].
    destruct (N.leb_spec (rows e1 + d) u32_max); [|lia]. rewrite later_app, app_assoc. exact G.
  - rewrite F. cbn [bind]. specialize (G 0%N e1 e1 _ [] r eq_refl ltac:(rewrite N.add_0_r; exact U1) (beh0 e1)).
    unfold follows in G |- *. destruct (f (e1, acc ++ bl, r)) as [[[e2 acc2] r2]|x|]; [|intros x0; discriminate..].
    destruct G as (bl2 & -> & NX2 & LE2 & UB2 & _). exists (bl ++ bl2). rewrite app_assoc. split; [reflexivity|].
    split; [intros l NL; rewrite app_assoc; apply NX2, NX, NL|]. split; [lia|]. split; [intros; apply UB2, U1|].
    destruct (N.leb_spec (rows e + d) u32_max); [|exact I]. destruct (N.leb_spec (rows e2 + d) u32_max); [lia|reflexivity].
Qed.

Definition run_follows (d : N) (e : Enc) (acc acc' : list (N * list N)) (o o' : outcome (list (N * list N))) : Prop :=
  match o with
  | Ret blocks =>
      exists bl final, blocks = acc ++ bl /\ (forall l, next_row l = rows e -> next_row (l ++ bl) = final) /\ (rows e <= final <= u32_max)%N
        /\ if (final + d <=? u32_max)%N then o' = Ret (acc' ++ later d bl) else o' = Panic PExpect
  | _ => forall x, o' <> Ret x
  end.

Lemma run_bind {X} d e acc acc' (o o' : outcome (Enc * list (N * list N) * result X)) (f : Enc -> list (N * list N) -> outcome (list (N * list N))) :
  (rows e + d <= u32_max)%N -> follows d e acc acc' o o' ->
  (forall d0 e1 e1' acc1 acc0 r, o = Ret (e1, acc1, r) -> (rows e1 + d0 <= u32_max)%N -> beh d0 e1 e1' -> run_follows d0 e1 acc1 acc0 (f e1 acc1) (f e1' acc0)) ->
  run_follows d e acc acc' (bind o (fun r => let '(e, s, _) := r in f e s)) (bind o' (fun r => let '(e, s, _) := r in f e s)).
Proof.
  intros HD F G. destruct o as [[[e1 acc1] r]|x|]; cbn [bind] in *.
  2,3: cbn [follows run_follows] in F |- *; intros y K; destruct o' as [z|z|]; cbn [bind] in K; try discriminate K; apply (F z); reflexivity.
  cbn [follows] in F. destruct F as (bl & -> & NX & LE & UB & F).
  destruct (N.leb_spec (rows e + d) u32_max) as [L|L]; [|lia].
  assert (U1 : (rows e1 <= u32_max)%N) by (apply UB; lia).
  destruct (N.leb_spec (rows e1 + d) u32_max) as [L1|L1].
  - destruct F as (e1' & -> & BH). cbn [bind]. specialize (G d e1 e1' (acc ++ bl) (acc' ++ later d bl) r eq_refl L1 BH). unfold run_follows in G |- *.
    destruct (f e1 (acc ++ bl)) as [blocks|x|]; [|exact G|exact G].
    destruct G as (bl2 & final & -> & NX2 & LE2 & G). exists (bl ++ bl2), final. rewrite app_assoc. split; [reflexivity|].
    split; [intros l NL; rewrite app_assoc; apply NX2, NX, NL|]. split; [lia|]. rewrite later_app, app_assoc. exact G.
  - rewrite F. cbn [bind]. specialize (G 0%N e1 e1 (acc ++ bl) [] r eq_refl ltac:(rewrite N.add_0_r; exact U1) (beh0 e1)).
    unfold run_follows in G |- *. destruct (f e1 (acc ++ bl)) as [blocks|x|]; [|intros x0; discriminate..].
    destruct G as (bl2 & final & -> & NX2 & LE2 & _). exists (bl ++ bl2), final. rewrite app_assoc. split; [reflexivity|].
    split; [intros l NL; rewrite app_assoc; apply NX2, NX, NL|]. split; [lia|]. destruct (N.leb_spec (final + d) u32_max); [lia|reflexivity].
Qed.
End Follow.

(** * A later encoder does the same, later *)

(** The second encoder has counted [d] rows more; otherwise they only differ in
    what the next block overwrites. *)
Definition behind (d : N) (e e' : bin_enc) : Prop :=
  be_remaining e' = be_remaining e /\ be_min e' = be_min e /\ be_rows e' = (be_rows e + d)%N.

Lemma behind0 e : behind 0 e e.
Proof. split; [reflexivity|]. split; [reflexivity|lia]. Qed.

Lemma write_follows p d e e' buf c bp acc acc' : behind d e e' -> (bc_start c < bc_end c -> 0 < N.to_nat (bc_len c)) ->
  follows be_rows behind d e acc acc' (be_write collect p e buf c bp acc) (be_write collect p e' buf c bp acc')
  /\ forall e1 acc1 r, be_write collect p e buf c bp acc = Ret (e1, acc1, r) -> be_remaining e1 = be_remaining e /\ exists k, r = Ok k.
Proof.
  intros (R1 & R2 & R3) HL. unfold be_write.
  destruct (encode_binary_buffer p buf c bp (be_bitmap e)) as [[[enc rle] [n lv]]|x|] eqn:E; cbn [bind].
  2,3: split; [|intros; discriminate]; cbn [follows]; intros y K;
    (destruct (encode_binary_buffer p buf c bp (be_bitmap e')) as [[[enc' rle'] [n' lv']]|x'|] eqn:E'; cbn [bind] in K; try discriminate K);
    destruct (encode_fresh _ _ _ _ _ (be_bitmap e) _ _ _ E') as (rle2 & E2); rewrite E2 in E; discriminate E.
  destruct (encode_rows _ _ _ _ _ _ _ _ _ E) as [HC HN]. specialize (HN (HL HC)).
  destruct (encode_fresh _ _ _ _ _ (be_bitmap e') _ _ _ E) as (rle' & E'). rewrite E'. cbn [bind].
  unfold be_add_rows. rewrite R3. unfold collect, sub32, usub. cbn [fst snd].
  destruct (N.leb_spec (N.of_nat n) u32_max) as [L1|L1]; [|cbn [bind]; split; [intros x; discriminate|intros; discriminate]].
  destruct (N.leb_spec (be_rows e + N.of_nat n) u32_max) as [L2|L2].
  2:{ cbn [bind]. split; [|intros; discriminate]. intros x. destruct (N.leb_spec (be_rows e + d + N.of_nat n) u32_max); [lia|discriminate]. }
  cbn [bind]. destruct (N.leb_spec 1 (be_rows e + N.of_nat n)) as [L3|L3]; [|lia]. cbn [bind fst snd].
  split; [|intros e1 acc1 r K; injection K as <- <- <-; split; [reflexivity|eauto]].
  cbn [follows be_rows]. exists [((be_rows e + N.of_nat n - 1)%N, enc)]. split; [reflexivity|].
  split; [intros l _; rewrite next_row_snoc; cbn [fst]; lia|]. split; [lia|]. split; [lia|].
  destruct (N.leb_spec (be_rows e + d) u32_max) as [L4|L4]; [|exact I].
  destruct (N.leb_spec (be_rows e + N.of_nat n + d) u32_max) as [L5|L5].
  - destruct (N.leb_spec (be_rows e + d + N.of_nat n) u32_max); [|lia]. cbn [bind].
    destruct (N.leb_spec 1 (be_rows e + d + N.of_nat n)); [|lia]. cbn [bind fst snd].
    exists (mk_benc (be_remaining e') enc rle' (be_min e') (be_rows e + d + N.of_nat n)).
    split; [|split; [exact R1|]; split; [exact R2|cbn [be_rows]; lia]].
    cbn [later map fst snd]. replace (be_rows e + N.of_nat n - 1 + d)%N with (be_rows e + d + N.of_nat n - 1)%N by lia. reflexivity.
  - destruct (N.leb_spec (be_rows e + d + N.of_nat n) u32_max); [lia|reflexivity].
Qed.

Lemma chunk_len p buf start m c : be_chunk p buf start m = Ret c -> bc_start c < bc_end c -> 0 < N.to_nat (bc_len c).
Proof.
  unfold be_chunk. intros H. destruct (idx _ start) as [so|x|]; cbn [bind] in H; try discriminate H.
  destruct (find_offset _ _ _ _ _) as [f|x|]; cbn [bind] in H; try discriminate H.
  destruct (match f with Some e => Ret e | None => _ end) as [[ep eo]|x|]; cbn [bind] in H; try discriminate H.
  destruct (sub32 p eo so) as [size|x|]; cbn [bind] in H; try discriminate H.
  destruct (sub64 p (N.of_nat ep) (N.of_nat start)) as [len|x|] eqn:E; cbn [bind] in H; try discriminate H. injection H as <-. cbn [bc_start bc_end bc_len].
  intros L. unfold sub64, usub in E. destruct (N.leb_spec (N.of_nat start) (N.of_nat ep)); [|lia]. injection E as <-. lia.
Qed.

Lemma loop_follows p buf : forall fuel d e e' pos vp acc acc', behind d e e' -> (be_rows e + d <= u32_max)%N ->
  follows be_rows behind d e acc acc' (be_loop collect p fuel e buf pos vp acc) (be_loop collect p fuel e' buf pos vp acc').
Proof.
  induction fuel as [|fuel IH]; intros d e e' pos vp acc acc' B L; cbn [be_loop]; [intros x; discriminate|].
  destruct (pos <? length (bb_offsets buf)); [|apply follows_ret; auto]. destruct B as (R1 & R2 & R3). rewrite R1, R2.
  destruct (be_chunk p buf pos (be_min e)) as [c|x|] eqn:EC; cbn [bind]; [|intros y; discriminate..].
  destruct (bc_size c <? be_min e)%N.
  - destruct (bb_append_from p (be_remaining e) buf (bc_start c) (bc_end c) vp) as [r|x|]; cbn [bind]; [|intros y; discriminate..].
    apply follows_ret; [reflexivity|]. split; [reflexivity|]. split; [exact R2|exact R3].
  - destruct (write_follows p d e e' buf c vp acc acc' ltac:(split; auto) (chunk_len _ _ _ _ _ EC)) as [W1 W2].
    apply (follows_bind be_rows behind behind0); [exact L|exact W1|]. intros d0 e1 e1' acc1 acc0 r E U B. destruct (W2 _ _ _ E) as (_ & k & ->). apply IH; assumption.
Qed.

Lemma remaining_follows p d e e' acc acc' : behind d e e' ->
  follows be_rows behind d e acc acc' (be_write_remaining collect p e acc) (be_write_remaining collect p e' acc')
  /\ forall e1 acc1 r, be_write_remaining collect p e acc = Ret (e1, acc1, r) -> be_remaining e1 = be_remaining e /\ exists k, r = Ok k.
Proof.
  intros B. pose proof B as (R1 & R2 & R3). unfold be_write_remaining. rewrite R1.
  destruct (idx _ _) as [eo|x|]; cbn [bind]; [|split; [intros y; discriminate|intros; discriminate]..].
  apply write_follows; [exact B|]. cbn [bc_start bc_end bc_len]. unfold bb_len. lia.
Qed.

Lemma encode_follows p buf fuel d e e' acc acc' : behind d e e' -> (be_rows e + d <= u32_max)%N ->
  follows be_rows behind d e acc acc' (be_encode collect p fuel e buf acc) (be_encode collect p fuel e' buf acc').
Proof.
  intros B L. pose proof B as (R1 & R2 & R3). unfold be_encode. rewrite R1, R2.
  destruct (0 <? bb_len (be_remaining e)); [|apply loop_follows; assumption].
  destruct (sub64 p _ _) as [want|x|]; cbn [bind]; [|intros y; discriminate..].
  destruct (be_chunk p buf 0 want) as [c|x|]; cbn [bind]; [|intros y; discriminate..].
  destruct (bb_append_from p (be_remaining e) buf (bc_start c) (bc_end c) 0) as [r|x|]; cbn [bind]; [|intros y; discriminate..].
  assert (B1 : behind d (be_set_remaining e (fst r)) (be_set_remaining e' (fst r))) by (split; [reflexivity|]; split; [exact R2|exact R3]).
  cbn [be_set_remaining be_remaining be_min]. rewrite R2.
  destruct (_ <? be_min e)%N; [apply follows_ret; [reflexivity|exact B1]|].
  destruct (remaining_follows p d _ _ acc acc' B1) as [W1 W2].
  apply (follows_from be_rows behind d (be_set_remaining e (fst r)) e); [reflexivity|]. fold (be_set_remaining e (fst r)).
  apply (follows_bind be_rows behind behind0); [exact L|exact W1|]. intros d0 e1 e1' acc1 acc0 res E U (S1 & S2 & S3). destruct (W2 _ _ _ E) as (_ & k & ->).
  apply (follows_from be_rows behind d0 (be_set_remaining e1 (bb_clear (be_remaining e1))) e1); [reflexivity|]. rewrite S1.
  apply loop_follows; [|exact U]. split; [reflexivity|]. split; [exact S2|exact S3].
Qed.

Lemma flush_follows p d e e' acc acc' : behind d e e' -> (be_rows e + d <= u32_max)%N ->
  follows be_rows behind d e acc acc' (be_flush collect p e acc) (be_flush collect p e' acc').
Proof.
  intros B L. pose proof B as (R1 & R2 & R3). unfold be_flush. rewrite R1.
  destruct (0 <? bb_len (be_remaining e)); [|apply follows_ret; auto].
  destruct (remaining_follows p d _ _ acc acc' B) as [W1 W2].
  apply (follows_bind be_rows behind behind0); [exact L|exact W1|]. intros d0 e1 e1' acc1 acc0 res E U BH. apply follows_ret; auto.
Qed.

(** Closing changes the count of rows and nothing else that matters. *)
Lemma flush_behind p e acc e1 acc1 r : be_flush collect p e acc = Ret (e1, acc1, r) -> (be_rows e <= u32_max)%N ->
  behind (be_rows e1 - be_rows e) e e1 /\ (be_rows e <= be_rows e1 <= u32_max)%N.
Proof.
  intros H U. pose proof (flush_follows p 0 e e acc [] ltac:(split; [reflexivity|split; [reflexivity|lia]]) ltac:(lia)) as F.
  rewrite H in F. cbn [follows] in F. destruct F as (bl & _ & _ & LE & UB & _). specialize (UB U).
  split; [|lia]. unfold be_flush in H. destruct (0 <? bb_len (be_remaining e)); [|injection H as <- _ _; split; [reflexivity|split; [reflexivity|lia]]].
  destruct (be_write_remaining collect p e acc) as [[[e2 s2] r2]|x|] eqn:W; cbn [bind] in H; try discriminate H. injection H as <- _ _.
  destruct (remaining_follows p 0 e e acc [] ltac:(split; [reflexivity|split; [reflexivity|lia]])) as [_ W2]. destruct (W2 _ _ _ W) as [RM _].
  split; [exact RM|]. split; [|lia]. unfold be_write_remaining in W. destruct (idx _ _) as [eo|x|]; cbn [bind] in W; try discriminate W.
  unfold be_write in W. destruct (encode_binary_buffer _ _ _ _ _) as [[[enc rle] [n lv]]|x|]; cbn [bind] in W; try discriminate W.
  destruct (be_add_rows _ _) as [rows|x|]; cbn [bind] in W; try discriminate W. destruct (sub32 _ _ _) as [id|x|]; cbn [bind] in W; try discriminate W.
  injection W as <- _ _. reflexivity.
Qed.

(** * Whole columns *)

Lemma encoder_follows p : forall ops d e e' acc acc', behind d e e' -> (be_rows e + d <= u32_max)%N ->
  run_follows be_rows d e acc acc' (encoder_run p (RawEnc e) ops acc) (encoder_run p (RawEnc e') ops acc').
Proof.
  induction ops as [|o ops IH]; intros d e e' acc acc' B L; cbn [encoder_run].
  - exists [], (be_rows e). rewrite app_nil_r. split; [reflexivity|]. split; [intros l NL; rewrite app_nil_r; exact NL|]. split; [lia|].
    destruct (N.leb_spec (be_rows e + d) u32_max); [|lia]. cbn [later map]. rewrite app_nil_r. reflexivity.
  - assert (BB : forall {X Y} (o : outcome (bin_enc * list (N * list N) * result X)) (g : result X -> result Y) (f : bin_encoder -> list (N * list N) -> outcome (list (N * list N))),
              bind (bind o (fun r => let '(e, s, res) := r in Ret (RawEnc e, s, g res))) (fun r => let '(e, s, _) := r in f e s)
              = bind o (fun r => let '(e, s, _) := r in f (RawEnc e) s)).
    { intros X Y o0 g f. destruct o0 as [[[e0 s0] r0]|x|]; reflexivity. }
    destruct o as [b|]; cbn [bin_encode bin_flush].
    + rewrite (BB _ _ (be_encode collect p _ e b acc) (fun x => x)), (BB _ _ (be_encode collect p _ e' b acc') (fun x => x)).
      apply (run_bind be_rows behind behind0 d e acc acc' _ _ (fun e s => encoder_run p (RawEnc e) ops s) L); [apply encode_follows; assumption|]. intros; apply IH; assumption.
    + rewrite (BB _ _ (be_flush collect p e acc)), (BB _ _ (be_flush collect p e' acc')).
      apply (run_bind be_rows behind behind0 d e acc acc' _ _ (fun e s => encoder_run p (RawEnc e) ops s) L); [apply flush_follows; assumption|]. intros; apply IH; assumption.
Qed.

(** The encoder after a run from the start has counted the rows of its blocks. *)
Lemma encoder_state p : forall ops e acc blocks, (be_rows e <= u32_max)%N -> encoder_run p (RawEnc e) ops acc = Ret blocks ->
  exists e', (forall more, encoder_run p (RawEnc e) (ops ++ more) acc = encoder_run p (RawEnc e') more blocks)
    /\ (be_rows e' <= u32_max)%N /\ (next_row acc = be_rows e -> next_row blocks = be_rows e').
Proof.
  induction ops as [|o ops IH]; intros e acc blocks U H; [injection H as <-; exists e; auto|].
  assert (B0 : behind 0 e e) by (split; [reflexivity|split; [reflexivity|lia]]).
  destruct o as [b|]; cbn [encoder_run bin_encode bin_flush app] in H |- *.
  - pose proof (encode_follows p b (length (bb_offsets b)) 0 e e acc [] B0 ltac:(lia)) as F.
    destruct (be_encode collect p _ e b acc) as [[[e1 acc1] r]|x|]; cbn [bind] in H |- *; try discriminate H.
    cbn [follows] in F. destruct F as (bl & -> & NX & LE & UB & _). destruct (IH e1 _ _ (UB U) H) as (e' & A & C & D).
    exists e'. split; [exact A|]. split; [exact C|]. intros K. apply D, NX, K.
  - pose proof (flush_follows p 0 e e acc [] B0 ltac:(lia)) as F.
    destruct (be_flush collect p e acc) as [[[e1 acc1] r]|x|]; cbn [bind] in H |- *; try discriminate H.
    cbn [follows] in F. destruct F as (bl & -> & NX & LE & UB & _). destruct (IH e1 _ _ (UB U) H) as (e' & A & C & D).
    exists e'. split; [exact A|]. split; [exact C|]. intros K. apply D, NX, K.
Qed.

(** What a close adds. *)
Lemma flush_adds p e acc e1 acc1 r : be_flush collect p e acc = Ret (e1, acc1, r) ->
  (acc1 = acc /\ e1 = e) \/ exists b, acc1 = acc ++ [b] /\ (fst b + 1 = be_rows e1)%N /\ (be_rows e < be_rows e1)%N.
Proof.
  intros H. unfold be_flush in H. destruct (Nat.ltb_spec 0 (bb_len (be_remaining e))) as [LB|LB]; [|injection H as <- <- _; auto]. right.
  unfold be_write_remaining in H. destruct (idx _ _) as [eo|x|]; cbn [bind] in H; try discriminate H. unfold be_write in H.
  destruct (encode_binary_buffer p _ _ 0 _) as [[[enc rle] [n lv]]|x|] eqn:EE; cbn [bind] in H; try discriminate H.
  destruct (encode_rows _ _ _ _ _ _ _ _ _ EE) as [_ NP]. cbn [bc_len] in NP. rewrite Nat2N.id in NP. specialize (NP LB).
  unfold be_add_rows in H. destruct (_ <=? u32_max)%N; [|discriminate H]. destruct (_ <=? u32_max)%N; [|discriminate H]. cbn [bind] in H.
  unfold sub32, usub in H. destruct (N.leb_spec 1 (be_rows e + N.of_nat n)); [|lia]. cbn [bind collect fst snd] in H. injection H as <- <- _.
  eexists. split; [reflexivity|]. cbn [fst be_rows]. lia.
Qed.

Lemma snappy_run p : forall ops acc, encoder_run p SnappyEnc ops acc
  = Ret (acc ++ flat_map (fun o => match o with CWrite _ => [(43243%N, snappy_data)] | CClose => [] end) ops).
Proof.
  induction ops as [|[b|] ops IH]; intros acc; cbn [encoder_run bin_encode bin_flush bind collect fst snd flat_map app].
  - rewrite app_nil_r. reflexivity.
  - rewrite IH, <- app_assoc. reflexivity.
  - apply IH.
Qed.

Lemma next_row_bound l n : Forall (fun b => fst b < n)%N l -> (next_row l <= n)%N.
Proof.
  intros F. unfold next_row. destruct (rev l) as [|b r] eqn:E; [lia|]. rewrite Forall_forall in F.
  assert (I : In b l) by (apply in_rev; rewrite E; left; reflexivity). specialize (F b I). lia.
Qed.

(** C95, exactly, for the binary columns of segments, whatever is done before
    ([ops1]) and after ([ops2]) the close in between: it adds one block at most,
    and everything written later is the same as without it, except that all row
    identifiers are higher by the rows of that block; if the row count then
    passes 2^32-1 there is a panic. *)
Theorem C95_binary_exact : forall p ci ops1 ops2 before extra,
  column_blocks p ci ops1 = Ret before -> column_blocks p ci (ops1 ++ [CClose]) = Ret (before ++ extra) ->
  let d := (next_row (before ++ extra) - next_row before)%N in
  length extra <= 1 /\ (extra = [] <-> d = 0%N)
  /\ match column_blocks p ci (ops1 ++ ops2) with
     | Ret blocks =>
         exists after, blocks = before ++ after
           /\ if (next_row blocks + d <=? u32_max)%N then column_blocks p ci (ops1 ++ [CClose] ++ ops2) = Ret (before ++ extra ++ later d after)
              else column_blocks p ci (ops1 ++ [CClose] ++ ops2) = Panic PExpect
     | _ => forall blocks, column_blocks p ci (ops1 ++ [CClose] ++ ops2) <> Ret blocks
     end.
Proof.
  intros p ci ops1 ops2 before extra H1 H2 d. unfold column_blocks in *.
  destruct (ci_encoding ci); cbn [new_binary_encoder] in *;
    try (injection H1 as <-; injection H2 as <-; cbn [app length]; split; [lia|]; split; [split; reflexivity|]; exists []; split; [reflexivity|]; reflexivity).
  - destruct (encoder_state p ops1 (be_new 128 (ci_nullable ci)) [] before ltac:(cbn; unfold u32_max; lia) H1) as (e & G & U & NX).
    specialize (NX eq_refl). rewrite !G in *. cbn [app encoder_run bin_flush] in H2 |- *.
    destruct (be_flush collect p e before) as [[[e1 acc1] r]|x|] eqn:FL; cbn [bind] in H2 |- *; try discriminate H2. injection H2 as ->.
    destruct (flush_behind p e before e1 _ r FL U) as [BH LE].
    assert (ED : d = (be_rows e1 - be_rows e)%N /\ length extra <= 1 /\ (extra = [] <-> d = 0%N)).
    { unfold d. rewrite NX. destruct (flush_adds _ _ _ _ _ _ FL) as [(E1 & ->)|(b & E1 & I1 & I2)].
      - rewrite <- (app_nil_r before) in E1 at 2. apply app_inv_head in E1. subst extra. rewrite app_nil_r, NX, N.sub_diag. cbn [length]. split; [reflexivity|]. split; [lia|]. split; reflexivity.
      - apply app_inv_head in E1. subst extra. rewrite next_row_snoc, I1. cbn [length]. split; [reflexivity|]. split; [lia|]. split; [discriminate|intros; lia]. }
    destruct ED as (ED & L1 & EZ). split; [exact L1|]. split; [exact EZ|]. rewrite <- ED in BH.
    pose proof (encoder_follows p ops2 d e e1 before (before ++ extra) BH ltac:(lia)) as F. unfold run_follows in F.
    destruct (encoder_run p (RawEnc e) ops2 before) as [blocks|x|]; [|exact F|exact F].
    destruct F as (bl & final & -> & FN & _ & F). exists bl. split; [reflexivity|]. rewrite (FN before NX), app_assoc. exact F.
  - rewrite snappy_run in H1, H2. rewrite !snappy_run. rewrite flat_map_app in H2. cbn [flat_map] in H2. rewrite app_nil_r in H2. rewrite H1 in H2. injection H2 as H2.
    rewrite <- (app_nil_r before) in H2 at 1. apply app_inv_head in H2. subst extra. injection H1 as H1. unfold d. rewrite app_nil_r, N.sub_diag. clear d.
    cbn [length app]. split; [lia|]. split; [split; reflexivity|]. rewrite !flat_map_app. cbn [flat_map app]. cbn [app] in H1. rewrite H1.
    eexists. split; [reflexivity|]. rewrite later_0.
    destruct (N.leb_spec (next_row (before ++ flat_map (fun o : col_op => match o with CWrite _ => [(43243%N, snappy_data)] | CClose => [] end) ops2) + 0) u32_max) as [L|L]; [reflexivity|].
    exfalso. clear -L H1. rewrite <- H1, <- flat_map_app, N.add_0_r in L.
    assert (F : Forall (fun b : N * list N => fst b < 43244)%N (flat_map (fun o : col_op => match o with CWrite _ => [(43243%N, snappy_data)] | CClose => [] end) (ops1 ++ ops2))).
    { apply Forall_forall. intros b I. apply in_flat_map in I. destruct I as ([x|] & _ & I); [|destruct I]. destruct I as [<-|[]]. reflexivity. }
    apply next_row_bound in F. unfold u32_max in L. cbn in L. lia.
Qed.
Print Assumptions C95_binary_exact.

(** A close that has nothing to write makes no difference. *)
Theorem C95_nothing_held_partial : forall p ci ops1 ops2 before blocks,
  column_blocks p ci ops1 = Ret before -> column_blocks p ci (ops1 ++ [CClose]) = Ret before ->
  column_blocks p ci (ops1 ++ [CClose] ++ ops2) = Ret blocks <-> column_blocks p ci (ops1 ++ ops2) = Ret blocks.
Proof.
  intros p ci ops1 ops2 before blocks H1 H2. pose proof (C95_binary_exact p ci ops1 ops2 before [] H1 ltac:(rewrite app_nil_r; exact H2)) as X. cbn zeta in X.
  destruct X as (_ & _ & X). rewrite app_nil_r, N.sub_diag in X.
  assert (U : forall l, column_blocks p ci (ops1 ++ ops2) = Ret l -> (next_row l <= u32_max)%N).
  { intros l. unfold column_blocks. destruct (ci_encoding ci); cbn [new_binary_encoder]; intros K; try (injection K as <-; cbn; unfold u32_max; lia).
    - destruct (encoder_state p (ops1 ++ ops2) (be_new 128 (ci_nullable ci)) [] l ltac:(cbn; unfold u32_max; lia) K) as (e & _ & U & NX). rewrite (NX eq_refl). exact U.
    - rewrite snappy_run in K. injection K as <-. apply N.le_trans with 43244%N; [|unfold u32_max; cbn; lia]. apply next_row_bound.
      apply Forall_forall. intros b I. apply in_flat_map in I. destruct I as ([x|] & _ & I); [|destruct I]. destruct I as [<-|[]]. reflexivity. }
  destruct (column_blocks p ci (ops1 ++ ops2)) as [bl|x|]; [|split; [intros K; destruct (X _ K)|discriminate]..].
  destruct X as (after & -> & X). specialize (U _ eq_refl). rewrite N.add_0_r in X. destruct (N.leb_spec (next_row (before ++ after)) u32_max); [|lia].
  rewrite later_0 in X. cbn [app] in X. cbn [app]. rewrite X. tauto.
Qed.
Print Assumptions C95_nothing_held_partial.

(** ** Rows are repeated *)

(** A column that was closed in between has no more data than one that was
    not. *)
Definition C95_statement : Prop := forall p ci ops1 ops2 blocks blocks' sizes sizes',
  ci_encoding ci = Raw -> ci_nullable ci = false ->
  column_blocks p ci (ops1 ++ ops2 ++ [CClose]) = Ret blocks -> Forall2 (fun b size => data_size p (snd b) size) blocks sizes ->
  column_blocks p ci (ops1 ++ [CClose] ++ ops2 ++ [CClose]) = Ret blocks' -> Forall2 (fun b size => data_size p (snd b) size) blocks' sizes' ->
  fold_right N.add 0%N sizes' = fold_right N.add 0%N sizes.

(** Two rows of one byte, with a close after the first: the first row is written
    twice, as row 0 and again as the first of two rows, which count as rows 1
    and 2. *)
Definition rs_buf (v : N) : bin_buf := match bb_fill false [[Some [v]]] with Ret (b :: _) => b | _ => bb_new false end.

Theorem C95_repeated_refuted :
  ~ C95_statement
  /\ column_blocks Debug ex_a ([CWrite (rs_buf 7)] ++ [CWrite (rs_buf 8)] ++ [CClose]) = Ret [(1, [2; 7; 8; 1; 1])]%N
  /\ column_blocks Debug ex_a ([CWrite (rs_buf 7)] ++ [CClose] ++ [CWrite (rs_buf 8)] ++ [CClose]) = Ret [(0, [1; 7; 1; 1]); (2, [2; 7; 8; 1; 1])]%N.
Proof.
  assert (B : column_blocks Debug ex_a ([CWrite (rs_buf 7)] ++ [CWrite (rs_buf 8)] ++ [CClose]) = Ret [(1, [2; 7; 8; 1; 1])]%N) by (vm_compute; reflexivity).
  assert (B' : column_blocks Debug ex_a ([CWrite (rs_buf 7)] ++ [CClose] ++ [CWrite (rs_buf 8)] ++ [CClose]) = Ret [(0, [1; 7; 1; 1]); (2, [2; 7; 8; 1; 1])]%N) by (vm_compute; reflexivity).
  split; [|split; [exact B|exact B']]. intros H.
  specialize (H Debug ex_a [CWrite (rs_buf 7)] [CWrite (rs_buf 8)] _ _ [2%N] [1%N; 2%N] eq_refl eq_refl B
    ltac:(constructor; [exists 1; split; [reflexivity|vm_compute; discriminate]|constructor]) B'
    ltac:(constructor; [exists 1; split; [reflexivity|vm_compute; discriminate]|constructor; [exists 1; split; [reflexivity|vm_compute; discriminate]|constructor]])).
  discriminate H.
Qed.
Print Assumptions C95_repeated_refuted.

(** The exact theorem here: one block before, and everything after the close one
    row later. *)
Example C95_witness :
  column_blocks Debug ex_a [CWrite (rs_buf 7)] = Ret []
  /\ column_blocks Debug ex_a ([CWrite (rs_buf 7)] ++ [CClose]) = Ret ([] ++ [(0, [1; 7; 1; 1])])%N
  /\ (next_row [(0, [1; 7; 1; 1])]%N - next_row [] = 1)%N /\ later 1 [(1, [2; 7; 8; 1; 1])]%N = [(2, [2; 7; 8; 1; 1])]%N.
Proof. vm_compute. repeat split. Qed.

(** * Fixed-width columns *)

(** A fixed-width column as segments would write it: buffers
    (src/store/encoding/raw/primitive_enc.rs:110-153) and closes (lines 155-161);
    the loop over buffers is that of src/store/segment_writer.rs for columns, which
    has binary columns only. *)
Inductive fixed_op := FxWrite (b : prim_buf N) | FxClose.

Fixpoint fixed_run (p : profile) (sz : nat) (e : prim_enc) (ops : list fixed_op) (sofar : list (N * list N)) : outcome (list (N * list N)) :=
  match ops with
  | [] => Ret sofar
  | FxWrite b :: rest => let* r := pe_encode collect p sz (S (pb_len b)) e b sofar in let '(e, sofar, _) := r in fixed_run p sz e rest sofar
  | FxClose :: rest => let* r := pe_flush collect p sz e sofar in let '(e, sofar, _) := r in fixed_run p sz e rest sofar
  end.

(** The second encoder has counted [d] rows more. *)
Definition fx_behind (d : N) (e e' : prim_enc) : Prop :=
  pe_remaining e' = pe_remaining e /\ pe_min e' = pe_min e /\ pe_rows e' = (pe_rows e + d)%N.

Lemma fx_behind0 e : fx_behind 0 e e.
Proof. split; [reflexivity|]. split; [reflexivity|lia]. Qed.

Lemma prim_fresh sz buf start end_ bp a b enc rle nl : encode_primitive_buffer sz buf start end_ bp a = Ret (enc, rle, nl) ->
  exists rle', encode_primitive_buffer sz buf start end_ bp b = Ret (enc, rle', nl).
Proof.
  unfold encode_primitive_buffer. intros H. destruct (put_varint [] _) as [h|x|]; cbn [bind] in H |- *; try discriminate.
  destruct (slice _ _ _) as [data|x|]; cbn [bind] in H |- *; try discriminate.
  destruct (pb_validity buf) as [v|]; [|injection H as <- <- <-; eauto].
  unfold rle_put_from in *. destruct (rle_put_from_loop _ (rle_clear a) v 0 bp _) as [[a1 k]|x|] eqn:PA; cbn [bind fst snd] in H; try discriminate.
  destruct (like_put_from _ (rle_clear a) (rle_clear b) _ _ _ _ _ _ ltac:(right; repeat split) PA) as (b1 & PB & L). rewrite PB. cbn [bind fst snd].
  pose proof (like_flush _ _ L) as LF. destruct (rle_flush a1) as [a2|x|]; cbn [bind] in H; try discriminate.
  destruct (rle_flush b1) as [b2|x|]; cbn in LF; try discriminate. injection LF as LF. cbn [bind]. injection H as <- <- <-. rewrite LF. eauto.
Qed.

Lemma prim_rows sz buf start end_ bp a enc rle n lv : encode_primitive_buffer sz buf start end_ bp a = Ret (enc, rle, (n, lv)) -> start < end_ -> 0 < n.
Proof.
  unfold encode_primitive_buffer. intros H L. destruct (put_varint [] _) as [h|x|]; cbn [bind] in H; try discriminate.
  destruct (slice _ _ _) as [data|x|]; cbn [bind] in H; try discriminate.
  destruct (pb_validity buf) as [v|]; [|injection H as _ _ <- _; lia].
  unfold rle_put_from in *. destruct (rle_put_from_loop _ _ v 0 bp _) as [[a1 k]|x|] eqn:PA; cbn [bind fst snd] in H; try discriminate.
  destruct (rle_flush a1) as [a2|x|]; cbn [bind] in H; try discriminate. injection H as _ _ <- _. apply put_from_moves in PA. lia.
Qed.

Lemma fx_write_follows p sz d e e' buf start end_ bp acc acc' : fx_behind d e e' -> start < end_ ->
  follows pe_rows fx_behind d e acc acc' (pe_write collect p sz e buf start end_ bp acc) (pe_write collect p sz e' buf start end_ bp acc')
  /\ forall e1 acc1 r, pe_write collect p sz e buf start end_ bp acc = Ret (e1, acc1, r) ->
       pe_remaining e1 = pe_remaining e /\ pe_min e1 = pe_min e /\ (exists k, r = Ok k)
       /\ exists b, acc1 = acc ++ [b] /\ (fst b + 1 = pe_rows e1)%N /\ (pe_rows e < pe_rows e1)%N.
Proof.
  intros (R1 & R2 & R3) HL. unfold pe_write.
  destruct (encode_primitive_buffer sz buf start end_ bp (pe_bitmap e)) as [[[enc rle] [n lv]]|x|] eqn:E; cbn [bind].
  2,3: split; [|intros; discriminate]; cbn [follows]; intros y K;
    (destruct (encode_primitive_buffer sz buf start end_ bp (pe_bitmap e')) as [[[enc' rle'] [n' lv']]|x'|] eqn:E'; cbn [bind] in K; try discriminate K);
    destruct (prim_fresh _ _ _ _ _ _ (pe_bitmap e) _ _ _ E') as (rle2 & E2); rewrite E2 in E; discriminate E.
  pose proof (prim_rows _ _ _ _ _ _ _ _ _ _ E HL) as HN.
  destruct (prim_fresh _ _ _ _ _ _ (pe_bitmap e') _ _ _ E) as (rle' & E'). rewrite E'. cbn [bind].
  unfold pe_add_rows. rewrite R3. unfold collect, sub32, usub. cbn [fst snd].
  destruct (N.leb_spec (N.of_nat n) u32_max) as [L1|L1]; [|cbn [bind]; split; [intros x; discriminate|intros; discriminate]].
  destruct (N.leb_spec (pe_rows e + N.of_nat n) u32_max) as [L2|L2].
  2:{ cbn [bind]. split; [|intros; discriminate]. intros x. destruct (N.leb_spec (pe_rows e + d + N.of_nat n) u32_max); [lia|discriminate]. }
  cbn [bind]. destruct (N.leb_spec 1 (pe_rows e + N.of_nat n)) as [L3|L3]; [|lia]. cbn [bind fst snd].
  split.
  2:{ intros e1 acc1 r K; injection K as <- <- <-. split; [reflexivity|]. split; [reflexivity|]. split; [eauto|]. eexists. split; [reflexivity|]. cbn [fst pe_rows]. lia. }
  cbn [follows pe_rows]. exists [((pe_rows e + N.of_nat n - 1)%N, enc)]. split; [reflexivity|].
  split; [intros l _; rewrite next_row_snoc; cbn [fst]; lia|]. split; [lia|]. split; [lia|].
  destruct (N.leb_spec (pe_rows e + d) u32_max) as [L4|L4]; [|exact I].
  destruct (N.leb_spec (pe_rows e + N.of_nat n + d) u32_max) as [L5|L5].
  - destruct (N.leb_spec (pe_rows e + d + N.of_nat n) u32_max); [|lia]. cbn [bind].
    destruct (N.leb_spec 1 (pe_rows e + d + N.of_nat n)); [|lia]. cbn [bind fst snd].
    exists (mk_penc (pe_remaining e') enc rle' (pe_min e') (pe_rows e + d + N.of_nat n)).
    split; [|split; [exact R1|]; split; [exact R2|cbn [pe_rows]; lia]].
    cbn [later map fst snd]. replace (pe_rows e + N.of_nat n - 1 + d)%N with (pe_rows e + d + N.of_nat n - 1)%N by lia. reflexivity.
  - destruct (N.leb_spec (pe_rows e + d + N.of_nat n) u32_max); [lia|reflexivity].
Qed.

Lemma fx_loop_follows p sz buf : forall fuel d e e' pos vp acc acc', (0 < pe_min e)%N -> fx_behind d e e' -> (pe_rows e + d <= u32_max)%N ->
  follows pe_rows fx_behind d e acc acc' (pe_loop collect p sz fuel e buf pos vp acc) (pe_loop collect p sz fuel e' buf pos vp acc').
Proof.
  induction fuel as [|fuel IH]; intros d e e' pos vp acc acc' M B L; cbn [pe_loop]; [intros x; discriminate|].
  destruct (pos <? pb_len buf); [|apply follows_ret; auto]. destruct B as (R1 & R2 & R3). rewrite R1, R2.
  destruct (pe_chunk p sz (pb_len buf) pos (pe_min e)) as [c|x|] eqn:EC; cbn [bind]; [|intros y; discriminate..].
  destruct (N.ltb_spec (N.of_nat ((c - pos) * sz)) (pe_min e)) as [LM|LM].
  - destruct (pb_append_from (pe_remaining e) buf pos c vp) as [r|x|]; cbn [bind]; [|intros y; discriminate..].
    apply follows_ret; [reflexivity|]. split; [reflexivity|]. split; [exact R2|exact R3].
  - assert (PC : pos < c) by (destruct (Nat.leb_spec c pos) as [Z|Z]; [replace (c - pos) with 0 in LM by lia; cbn in LM; lia|exact Z]).
    destruct (fx_write_follows p sz d e e' buf pos c vp acc acc' ltac:(split; auto) PC) as [W1 W2].
    apply (follows_bind pe_rows fx_behind fx_behind0); [exact L|exact W1|]. intros d0 e1 e1' acc1 acc0 r E U B. destruct (W2 _ _ _ E) as (_ & M1 & (k & ->) & _).
    apply IH; [rewrite M1; exact M|assumption..].
Qed.

Lemma fx_remaining_follows p sz d e e' acc acc' : fx_behind d e e' -> 0 < pb_len (pe_remaining e) ->
  follows pe_rows fx_behind d e acc acc' (pe_write_remaining collect p sz e acc) (pe_write_remaining collect p sz e' acc')
  /\ forall e1 acc1 r, pe_write_remaining collect p sz e acc = Ret (e1, acc1, r) ->
       pe_remaining e1 = pe_remaining e /\ pe_min e1 = pe_min e /\ (exists k, r = Ok k)
       /\ exists b, acc1 = acc ++ [b] /\ (fst b + 1 = pe_rows e1)%N /\ (pe_rows e < pe_rows e1)%N.
Proof. intros B H. pose proof B as (R1 & R2 & R3). unfold pe_write_remaining. rewrite R1. apply fx_write_follows; assumption. Qed.

Lemma fx_encode_follows p sz buf fuel d e e' acc acc' : (0 < pe_min e)%N -> fx_behind d e e' -> (pe_rows e + d <= u32_max)%N ->
  follows pe_rows fx_behind d e acc acc' (pe_encode collect p sz fuel e buf acc) (pe_encode collect p sz fuel e' buf acc').
Proof.
  intros M B L. pose proof B as (R1 & R2 & R3). unfold pe_encode. rewrite R1, R2.
  destruct (0 <? pb_len (pe_remaining e)); [|apply fx_loop_follows; assumption].
  destruct (sub64 p _ _) as [want|x|]; cbn [bind]; [|intros y; discriminate..].
  destruct (pe_chunk p sz (pb_len buf) 0 want) as [c|x|]; cbn [bind]; [|intros y; discriminate..].
  destruct (pb_append_from (pe_remaining e) buf 0 c 0) as [r|x|]; cbn [bind]; [|intros y; discriminate..].
  assert (B1 : fx_behind d (pe_set_remaining e (fst r)) (pe_set_remaining e' (fst r))) by (split; [reflexivity|]; split; [exact R2|exact R3]).
  cbn [pe_set_remaining pe_remaining pe_min]. rewrite R2.
  destruct (N.ltb_spec (N.of_nat (pb_len (fst r))) (pe_min e)) as [LM|LM]; [apply follows_ret; [reflexivity|exact B1]|].
  destruct (fx_remaining_follows p sz d _ _ acc acc' B1 ltac:(cbn [pe_set_remaining pe_remaining]; lia)) as [W1 W2].
  apply (follows_from pe_rows fx_behind d (pe_set_remaining e (fst r)) e); [reflexivity|].
  apply (follows_bind pe_rows fx_behind fx_behind0); [exact L|exact W1|]. intros d0 e1 e1' acc1 acc0 res E U (S1 & S2 & S3). destruct (W2 _ _ _ E) as (_ & M1 & (k & ->) & _).
  apply (follows_from pe_rows fx_behind d0 (pe_set_remaining e1 (pb_clear (pe_remaining e1))) e1); [reflexivity|]. rewrite S1.
  apply fx_loop_follows; [cbn [pe_set_remaining pe_min]; rewrite M1; exact M| |exact U]. split; [reflexivity|]. split; [exact S2|exact S3].
Qed.

Lemma fx_flush_follows p sz d e e' acc acc' : fx_behind d e e' -> (pe_rows e + d <= u32_max)%N ->
  follows pe_rows fx_behind d e acc acc' (pe_flush collect p sz e acc) (pe_flush collect p sz e' acc').
Proof.
  intros B L. pose proof B as (R1 & R2 & R3). unfold pe_flush. rewrite R1.
  destruct (Nat.ltb_spec 0 (pb_len (pe_remaining e))) as [P|P]; [|apply follows_ret; auto].
  destruct (fx_remaining_follows p sz d _ _ acc acc' B P) as [W1 W2].
  apply (follows_bind pe_rows fx_behind fx_behind0); [exact L|exact W1|]. intros d0 e1 e1' acc1 acc0 res E U BH. apply follows_ret; auto.
Qed.

(** The block size stays. *)
Lemma fx_write_min p sz e buf start end_ bp acc e1 acc1 r : pe_write collect p sz e buf start end_ bp acc = Ret (e1, acc1, r) -> pe_min e1 = pe_min e /\ exists k, r = Ok k.
Proof.
  unfold pe_write. destruct (encode_primitive_buffer _ _ _ _ _ _) as [[[enc rle] [n lv]]|x|]; cbn [bind]; try discriminate.
  destruct (pe_add_rows _ _) as [rows|x|]; cbn [bind]; try discriminate. destruct (sub32 _ _ _) as [id|x|]; cbn [bind collect fst snd]; try discriminate.
  intros H. injection H as <- _ <-. eauto.
Qed.

Lemma fx_loop_min p sz buf : forall fuel e pos vp acc e1 acc1 r, pe_loop collect p sz fuel e buf pos vp acc = Ret (e1, acc1, r) -> pe_min e1 = pe_min e.
Proof.
  induction fuel as [|fuel IH]; intros e pos vp acc e1 acc1 r; cbn [pe_loop]; [discriminate|].
  destruct (pos <? pb_len buf); [|intros H; injection H as <- _ _; reflexivity].
  destruct (pe_chunk _ _ _ _ _) as [c|x|]; cbn [bind]; try discriminate. destruct (_ <? pe_min e)%N.
  - destruct (pb_append_from _ _ _ _ _) as [q|x|]; cbn [bind]; try discriminate. intros H; injection H as <- _ _; reflexivity.
  - destruct (pe_write collect p sz e buf pos c vp acc) as [[[e2 acc2] r2]|x|] eqn:W; cbn [bind]; try discriminate.
    destruct (fx_write_min _ _ _ _ _ _ _ _ _ _ _ W) as (M & k & ->). intros H. apply IH in H. congruence.
Qed.

Lemma fx_encode_min p sz buf fuel e acc e1 acc1 r : pe_encode collect p sz fuel e buf acc = Ret (e1, acc1, r) -> pe_min e1 = pe_min e.
Proof.
  unfold pe_encode. destruct (0 <? pb_len (pe_remaining e)); [|apply fx_loop_min].
  destruct (sub64 p _ _) as [want|x|]; cbn [bind]; try discriminate. destruct (pe_chunk _ _ _ _ _) as [c|x|]; cbn [bind]; try discriminate.
  destruct (pb_append_from _ _ _ _ _) as [q|x|]; cbn [bind]; try discriminate.
  destruct (_ <? _)%N; [intros H; injection H as <- _ _; reflexivity|]. unfold pe_write_remaining.
  destruct (pe_write collect p sz _ _ _ _ _ acc) as [[[e2 acc2] r2]|x|] eqn:W; cbn [bind]; try discriminate.
  destruct (fx_write_min _ _ _ _ _ _ _ _ _ _ _ W) as (M & k & ->). intros H. apply fx_loop_min in H. cbn [pe_set_remaining pe_min] in *. congruence.
Qed.

Lemma fx_flush_min p sz e acc e1 acc1 r : pe_flush collect p sz e acc = Ret (e1, acc1, r) -> pe_min e1 = pe_min e.
Proof.
  unfold pe_flush, pe_write_remaining. destruct (0 <? pb_len (pe_remaining e)); [|intros H; injection H as <- _ _; reflexivity].
  destruct (pe_write collect p sz _ _ _ _ _ acc) as [[[e2 acc2] r2]|x|] eqn:W; cbn [bind]; try discriminate.
  destruct (fx_write_min _ _ _ _ _ _ _ _ _ _ _ W) as (M & k & ->). intros H. injection H as <- _ _. exact M.
Qed.

Lemma fx_run_follows p sz : forall ops d e e' acc acc', (0 < pe_min e)%N -> fx_behind d e e' -> (pe_rows e + d <= u32_max)%N ->
  run_follows pe_rows d e acc acc' (fixed_run p sz e ops acc) (fixed_run p sz e' ops acc').
Proof.
  induction ops as [|o ops IH]; intros d e e' acc acc' M B L; cbn [fixed_run].
  - exists [], (pe_rows e). rewrite app_nil_r. split; [reflexivity|]. split; [intros l NL; rewrite app_nil_r; exact NL|]. split; [lia|].
    destruct (N.leb_spec (pe_rows e + d) u32_max); [|lia]. cbn [later map]. rewrite app_nil_r. reflexivity.
  - destruct o as [b|].
    + apply (run_bind pe_rows fx_behind fx_behind0 d e acc acc' _ _ (fun e s => fixed_run p sz e ops s) L); [apply fx_encode_follows; assumption|].
      intros d0 e1 e1' acc1 acc0 r E U BH. apply IH; [rewrite (fx_encode_min _ _ _ _ _ _ _ _ _ E); exact M|assumption..].
    + apply (run_bind pe_rows fx_behind fx_behind0 d e acc acc' _ _ (fun e s => fixed_run p sz e ops s) L); [apply fx_flush_follows; assumption|].
      intros d0 e1 e1' acc1 acc0 r E U BH. apply IH; [rewrite (fx_flush_min _ _ _ _ _ _ _ E); exact M|assumption..].
Qed.

Lemma fx_state p sz : forall ops e acc blocks, (0 < pe_min e)%N -> (pe_rows e <= u32_max)%N -> fixed_run p sz e ops acc = Ret blocks ->
  exists e', (forall more, fixed_run p sz e (ops ++ more) acc = fixed_run p sz e' more blocks)
    /\ (0 < pe_min e')%N /\ (pe_rows e' <= u32_max)%N /\ (next_row acc = pe_rows e -> next_row blocks = pe_rows e').
Proof.
  induction ops as [|o ops IH]; intros e acc blocks M U H; [injection H as <-; exists e; auto|].
  pose proof (fx_behind0 e) as B0. destruct o as [b|]; cbn [fixed_run app] in H |- *.
  - pose proof (fx_encode_follows p sz b (S (pb_len b)) 0 e e acc [] M B0 ltac:(lia)) as F.
    destruct (pe_encode collect p sz _ e b acc) as [[[e1 acc1] r]|x|] eqn:E; cbn [bind] in H |- *; try discriminate H.
    cbn [follows] in F. destruct F as (bl & -> & NX & LE & UB & _). apply fx_encode_min in E. destruct (IH e1 _ _ ltac:(congruence) (UB U) H) as (e' & A & MM & C & D).
    exists e'. split; [exact A|]. split; [exact MM|]. split; [exact C|]. intros K. apply D, NX, K.
  - pose proof (fx_flush_follows p sz 0 e e acc [] B0 ltac:(lia)) as F.
    destruct (pe_flush collect p sz e acc) as [[[e1 acc1] r]|x|] eqn:E; cbn [bind] in H |- *; try discriminate H.
    cbn [follows] in F. destruct F as (bl & -> & NX & LE & UB & _). apply fx_flush_min in E. destruct (IH e1 _ _ ltac:(congruence) (UB U) H) as (e' & A & MM & C & D).
    exists e'. split; [exact A|]. split; [exact MM|]. split; [exact C|]. intros K. apply D, NX, K.
Qed.

Lemma fx_flush_adds p sz e acc e1 acc1 r : pe_flush collect p sz e acc = Ret (e1, acc1, r) -> (pe_rows e <= u32_max)%N ->
  fx_behind (pe_rows e1 - pe_rows e) e e1 /\ (pe_rows e <= pe_rows e1 <= u32_max)%N
  /\ ((acc1 = acc /\ e1 = e) \/ exists b, acc1 = acc ++ [b] /\ (fst b + 1 = pe_rows e1)%N /\ (pe_rows e < pe_rows e1)%N).
Proof.
  intros H U. pose proof (fx_flush_follows p sz 0 e e acc [] (fx_behind0 e) ltac:(lia)) as F.
  rewrite H in F. cbn [follows] in F. destruct F as (bl & _ & _ & LE & UB & _). specialize (UB U).
  unfold pe_flush in H. destruct (Nat.ltb_spec 0 (pb_len (pe_remaining e))) as [P|P]; [|injection H as <- <- _; split; [split; [reflexivity|split; [reflexivity|lia]]|split; [lia|auto]]].
  destruct (fx_remaining_follows p sz 0 e e acc [] (fx_behind0 e) P) as [_ W2].
  destruct (pe_write_remaining collect p sz e acc) as [[[e2 s2] r2]|x|] eqn:W; cbn [bind] in H; try discriminate H. injection H as <- <- _.
  destruct (W2 _ _ _ eq_refl) as (RM & MM & _ & BB). split; [split; [exact RM|]; split; [exact MM|lia]|]. split; [lia|]. right. exact BB.
Qed.

(** The same for fixed-width columns of any width and any block size. *)
Theorem C95_fixed_exact : forall p sz B nullable ops1 ops2 before extra, (0 < B)%N ->
  fixed_run p sz (pe_new B nullable) ops1 [] = Ret before -> fixed_run p sz (pe_new B nullable) (ops1 ++ [FxClose]) [] = Ret (before ++ extra) ->
  let d := (next_row (before ++ extra) - next_row before)%N in
  length extra <= 1 /\ (extra = [] <-> d = 0%N)
  /\ match fixed_run p sz (pe_new B nullable) (ops1 ++ ops2) [] with
     | Ret blocks =>
         exists after, blocks = before ++ after
           /\ if (next_row blocks + d <=? u32_max)%N then fixed_run p sz (pe_new B nullable) (ops1 ++ [FxClose] ++ ops2) [] = Ret (before ++ extra ++ later d after)
              else fixed_run p sz (pe_new B nullable) (ops1 ++ [FxClose] ++ ops2) [] = Panic PExpect
     | _ => forall blocks, fixed_run p sz (pe_new B nullable) (ops1 ++ [FxClose] ++ ops2) [] <> Ret blocks
     end.
Proof.
  intros p sz B nullable ops1 ops2 before extra HB H1 H2 d.
  destruct (fx_state p sz ops1 (pe_new B nullable) [] before HB ltac:(cbn; unfold u32_max; lia) H1) as (e & G & M & U & NX).
  specialize (NX eq_refl). rewrite !G in *. cbn [app fixed_run] in H2 |- *.
  destruct (pe_flush collect p sz e before) as [[[e1 acc1] r]|x|] eqn:FL; cbn [bind] in H2 |- *; try discriminate H2. injection H2 as ->.
  destruct (fx_flush_adds p sz e before e1 _ r FL U) as (BH & LE & FA).
  assert (ED : d = (pe_rows e1 - pe_rows e)%N /\ length extra <= 1 /\ (extra = [] <-> d = 0%N)).
  { unfold d. rewrite NX. destruct FA as [(E1 & ->)|(b & E1 & I1 & I2)].
    - rewrite <- (app_nil_r before) in E1 at 2. apply app_inv_head in E1. subst extra. rewrite app_nil_r, NX, N.sub_diag. cbn [length]. split; [reflexivity|]. split; [lia|]. split; reflexivity.
    - apply app_inv_head in E1. subst extra. rewrite next_row_snoc, I1. cbn [length]. split; [reflexivity|]. split; [lia|]. split; [discriminate|intros; lia]. }
  destruct ED as (ED & L1 & EZ). split; [exact L1|]. split; [exact EZ|]. rewrite <- ED in BH.
  pose proof (fx_run_follows p sz ops2 d e e1 before (before ++ extra) M BH ltac:(lia)) as F. unfold run_follows in F.
  destruct (fixed_run p sz e ops2 before) as [blocks|x|]; [|exact F|exact F].
  destruct F as (bl & final & -> & FN & _ & F). exists bl. split; [reflexivity|]. rewrite (FN before NX), app_assoc. exact F.
Qed.
Print Assumptions C95_fixed_exact.

(** Rows are repeated here too: four-byte values, blocks of eight bytes, three
    rows before the close and one after.  The close writes the third row; the last
    close writes it once more, with the fourth. *)
Definition rs_prim (nl : bool) (rows : list (option N)) : prim_buf N := match pb_fill nl [rows] with Ret (b :: _) => b | _ => pb_new nl end.

Example C95_fixed_witness :
  let run := fixed_run Debug 4 (pe_new 8 false) in
  let ops1 := [FxWrite (rs_prim false [Some 1; Some 2; Some 3]%N)] in let ops2 := [FxWrite (rs_prim false [Some 4%N]); FxClose] in
  let b1 := [8; 1; 0; 0; 0; 2; 0; 0; 0]%N in
  run ops1 [] = Ret [(1%N, b1)] /\ run (ops1 ++ [FxClose]) [] = Ret ([(1%N, b1)] ++ [(2, [4; 3; 0; 0; 0])%N])
  /\ run (ops1 ++ ops2) [] = Ret [(1%N, b1); (3, [8; 3; 0; 0; 0; 4; 0; 0; 0])%N]
  /\ run (ops1 ++ [FxClose] ++ ops2) [] = Ret [(1%N, b1); (2, [4; 3; 0; 0; 0])%N; (4, [8; 3; 0; 0; 0; 4; 0; 0; 0])%N].
Proof. vm_compute. repeat split. Qed.
