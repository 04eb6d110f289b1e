(** C78: every call on an encoder, a column or a segment comes to an end. *)
From Verif Require Import Base BaseProofs Spec Util Varint VarintProofs Buffers Rle Offsets OffsetsProofs Sink PrimEnc BinEnc Io Names Metadata Segment
  SpecSegment.
Open Scope nat_scope.

(** ** Computations that do not run out of steps *)

(** [m] does not run out of steps, and what it returns, if it returns, is [Q]. *)
Definition fin {A} (m : outcome A) (Q : A -> Prop) : Prop :=
  match m with Ret a => Q a | Panic _ => True | NoFuel => False end.

Lemma fin_bind {A B} (m : outcome A) (k : A -> outcome B) (Q : A -> Prop) (R : B -> Prop) :
  fin m Q -> (forall a, Q a -> fin (k a) R) -> fin (bind m k) R.
Proof. destruct m as [a|x|]; cbn [fin bind]; intros H K; [apply K; exact H|exact I|exact H]. Qed.

Lemma fin_weaken {A} (m : outcome A) (Q R : A -> Prop) : fin m Q -> (forall a, Q a -> R a) -> fin m R.
Proof. destruct m as [a|x|]; cbn [fin]; auto. Qed.

Lemma fin_not {A} (m : outcome A) (Q : A -> Prop) : fin m Q -> m <> NoFuel.
Proof. destruct m; cbn [fin]; [discriminate|discriminate|contradiction]. Qed.

Lemma fin_idx {A} (l : list A) i : fin (idx l i) (fun x => i < length l /\ In x l).
Proof.
  unfold idx. destruct (nth_error l i) as [x|] eqn:E; cbn [fin]; [|exact I]. split; [|exact (nth_error_In l i E)].
  apply nth_error_Some. rewrite E. discriminate.
Qed.

Lemma fin_upd {A} (l : list A) i x : fin (upd l i x) (fun _ => True).
Proof. unfold upd. destruct (i <? length l); exact I. Qed.

Lemma fin_slice {A} (l : list A) s e : fin (slice l s e) (fun _ => s <= e <= length l).
Proof.
  unfold slice. destruct (Nat.leb_spec s e); cbn [andb]; [|exact I]. destruct (Nat.leb_spec e (length l)); cbn [fin]; [lia|exact I].
Qed.

Lemma fin_slice_from {A} (l : list A) s : fin (slice_from l s) (fun r => r = skipn s l /\ s <= length l).
Proof. unfold slice_from. destruct (Nat.leb_spec s (length l)); cbn [fin]; auto. Qed.

Lemma fin_uadd lim p a b : (0 < lim)%N -> fin (uadd lim p a b) (fun r => (r < lim)%N).
Proof.
  intros H. unfold uadd. destruct (N.ltb_spec (a + b) lim); cbn [fin]; [assumption|]. destruct p; cbn [fin]; [exact I|].
  apply N.mod_lt. lia.
Qed.

Lemma fin_usub lim p a b : (a < lim)%N -> fin (usub lim p a b) (fun r => (r < lim)%N).
Proof. intros H. unfold usub. destruct (N.leb_spec b a); cbn [fin]; [lia|]. destruct p; cbn [fin]; [exact I|lia]. Qed.

Lemma fin_usub_any lim p a b : fin (usub lim p a b) (fun _ => True).
Proof. unfold usub. destruct (b <=? a)%N; [exact I|]. destruct p; exact I. Qed.

Lemma fin_uadd_any lim p a b : fin (uadd lim p a b) (fun _ => True).
Proof. unfold uadd. destruct (a + b <? lim)%N; [exact I|]. destruct p; exact I. Qed.

Lemma fin_put_varint vec v : (v < u64_lim)%N -> fin (put_varint vec v) (fun _ => True).
Proof. intros H. rewrite put_varint_ok by exact H. exact I. Qed.

(** ** The validity encoder *)

Definition small (m : nat) (e : rle_enc) : Prop :=
  length (re_buffer e) <= m /\ re_repeat e <= m + 2 /\ re_run_start e <= m.

Definition room (m : nat) : Prop := (2 * N.of_nat m + 9 < u64_lim)%N.

Lemma small_le m m' e : m <= m' -> small m e -> small m' e.
Proof. unfold small. lia. Qed.

Lemma fin_emit_literal m e len : room m -> len <= m + 2 ->
  fin (rle_emit_literal e len) (fun e' => re_buffer e' = re_buffer e /\ re_repeat e' = re_repeat e /\ re_run_start e' = re_run_start e).
Proof.
  intros RO L. unfold room in RO. unfold rle_emit_literal. destruct (re_buffer e) eqn:B; [cbn [fin]; auto|]. rewrite <- B.
  eapply fin_bind; [apply fin_put_varint; lia|]. intros out _. eapply fin_bind; [apply fin_slice|]. intros lit _. cbn [fin set_out re_buffer re_repeat re_run_start]. auto.
Qed.

Lemma fin_emit_run m e len v : room m -> len <= m + 2 ->
  fin (rle_emit_run e len v) (fun e' => re_buffer e' = re_buffer e /\ re_repeat e' = re_repeat e /\ re_run_start e' = re_run_start e).
Proof.
  intros RO L. unfold room in RO. unfold rle_emit_run.
  eapply fin_bind; [apply fin_put_varint; lia|]. intros out _. cbn [fin set_out re_buffer re_repeat re_run_start]. auto.
Qed.

Lemma fin_append m e v : room m -> small m e -> fin (rle_append e v) (small (S m)).
Proof.
  intros RO (L & R & T). unfold rle_append.
  apply fin_bind with (Q := small (S m)).
  2:{ intros a SA. cbn [fin]. exact SA. }
  destruct (re_state e).
  - cbn [fin]. unfold small. cbn [set_buffer set_run re_buffer re_repeat re_run_start]. rewrite app_length. cbn [length]. lia.
  - apply fin_bind with (Q := fun e' => length (re_buffer e') <= m /\ re_repeat e' <= m + 2 /\ re_run_start e' <= m).
    + destruct (re_last e =? v)%N; [|cbn [fin]; auto]. destruct (re_buffer e) eqn:B; [exact I|].
      cbn [fin set_run re_buffer re_repeat re_run_start]. rewrite B. cbn [length] in *. lia.
    + intros a (L2 & R2 & T2). cbn [fin]. unfold small. cbn [set_buffer re_buffer re_repeat re_run_start]. rewrite app_length. cbn [length]. lia.
  - cbv zeta. destruct (negb _).
    + cbn [fin]. unfold small. cbn [rle_to_literal set_buffer set_run re_buffer re_repeat re_run_start]. rewrite app_length. cbn [length]. lia.
    + destruct (_ =? MIN_RUN_LEN).
      * apply fin_bind with (Q := fun e' => re_repeat e' = re_repeat e + 1 /\ re_run_start e' = re_run_start e).
        -- cbn [set_run set_buffer re_buffer re_repeat re_run_start]. destruct (0 <? re_run_start e); [|cbn [fin re_repeat re_run_start]; auto].
           eapply fin_weaken; [apply fin_emit_literal with (m := m); [exact RO|lia]|]. intros a (X1 & X2 & X3). split; [exact X2|exact X3].
        -- intros a (X2 & X3). cbn [fin]. unfold small. cbn [set_buffer set_run re_buffer re_repeat re_run_start length]. lia.
      * cbn [fin]. unfold small. cbn [set_buffer set_run re_buffer re_repeat re_run_start]. rewrite app_length. cbn [length]. lia.
  - destruct (negb _).
    + eapply fin_bind; [apply fin_emit_run with (m := m); [exact RO|lia]|]. intros a (X1 & X2 & X3). cbn [fin]. unfold small.
      cbn [rle_to_literal set_buffer set_run re_buffer re_repeat re_run_start]. rewrite app_length. cbn [length]. rewrite X1. lia.
    + cbn [fin]. unfold small. cbn [set_run re_buffer re_repeat re_run_start]. lia.
Qed.

Lemma fin_put m e b : room m -> small m e -> fin (rle_put e b) (small (S m)).
Proof.
  intros RO SM. unfold rle_put.
  apply fin_bind with (Q := fun _ => True).
  { destruct b; [|exact I]. eapply fin_bind; [apply fin_idx|]. intros a _. exact I. }
  intros byte _. cbv zeta. destruct (_ =? 8).
  - eapply fin_bind; [apply fin_append with (m := m); [exact RO|exact SM]|]. intros a SA. exact SA.
  - cbn [fin]. apply (small_le m); [lia|]. exact SM.
Qed.

Lemma fin_is_set src i : fin (bm_is_set src i) (fun _ => i < bm_len src).
Proof.
  unfold bm_is_set. destruct (Nat.ltb_spec i (bm_len src)); [|exact I].
  eapply fin_bind; [apply fin_idx|]. intros x _. eapply fin_bind; [apply fin_idx|]. intros y _. cbn [fin]. assumption.
Qed.

Lemma fin_put_from_loop src n : room (S (bm_len src)) -> forall fuel e items bit_pos m,
  S (bm_len src) <= fuel + bit_pos -> 0 < fuel -> m <= bit_pos -> small m e ->
  fin (rle_put_from_loop fuel e src items bit_pos n) (fun r => exists m', m' <= S (bm_len src) /\ small m' (fst r) \/ fst r = e).
Proof.
  intros RO. induction fuel as [|fuel IH]; intros e items bit_pos m F P M SM; [lia|]. cbn [rle_put_from_loop].
  destruct (items <? n); [|cbn [fin fst]; exists 0; right; reflexivity].
  eapply fin_bind; [apply fin_is_set|]. intros bit B. cbv beta in B.
  eapply fin_bind; [apply fin_put with (m := m); [unfold room in *; lia|exact SM]|]. intros e1 SM1.
  eapply fin_weaken; [apply IH with (m := S m); [lia|lia|lia|exact SM1]|].
  intros r (m' & [[X1 X2]|X]); [exists m'; left; auto|]. exists (S m). left. split; [lia|]. rewrite X. exact SM1.
Qed.

Lemma small_clear e : small 0 (rle_clear e).
Proof. unfold small. cbn [rle_clear re_buffer re_repeat re_run_start length]. lia. Qed.

Lemma fin_put_from e src start n : room (S (bm_len src)) ->
  fin (rle_put_from (rle_clear e) src start n) (fun r => small (S (bm_len src)) (fst r)).
Proof.
  intros RO. unfold rle_put_from.
  eapply fin_weaken; [apply fin_put_from_loop with (m := 0); [exact RO|lia|lia|lia|apply small_clear]|].
  intros r (m' & [[X1 X2]|X]); [apply (small_le m'); assumption|]. rewrite X. apply (small_le 0); [lia|apply small_clear].
Qed.

Lemma fin_flush m e : room (S m) -> small m e -> fin (rle_flush e) (fun _ => True).
Proof.
  intros RO SM. unfold rle_flush. apply fin_bind with (Q := small (S m)).
  { destruct (0 <? re_bit_pos e); [|cbn [fin]; apply (small_le m); [lia|exact SM]]. apply fin_append; [unfold room in *; lia|exact SM]. }
  intros a (L & R & T). destruct (re_state a); [exact I| | |].
  - eapply fin_weaken; [apply fin_emit_literal with (m := S m); [exact RO|lia]|]. auto.
  - eapply fin_weaken; [apply fin_emit_literal with (m := S m); [exact RO|lia]|]. auto.
  - eapply fin_weaken; [apply fin_emit_run with (m := S m); [exact RO|lia]|]. auto.
Qed.

(** ** Copying between buffers *)

Lemma fin_bm_append b s : fin (bm_append b s) (fun b' => bm_len b' = bm_len b + 1).
Proof.
  unfold bm_append. cbv zeta. apply fin_bind with (Q := fun _ => True); [|intros v _; reflexivity].
  destruct s; [|exact I]. eapply fin_bind; [apply fin_idx|]. intros mask _. eapply fin_bind; [apply fin_idx|]. intros old _. apply fin_upd.
Qed.

Lemma fin_bm_append_from_loop src n : forall fuel dst items bit_pos, S (bm_len src) <= fuel + bit_pos -> 0 < fuel ->
  fin (bm_append_from_loop fuel dst src items bit_pos n) (fun r => bm_len (fst r) <= bm_len dst + (bm_len src - bit_pos)).
Proof.
  induction fuel as [|fuel IH]; intros dst items bit_pos F P; [lia|]. cbn [bm_append_from_loop].
  destruct (items <? n); [|cbn [fin fst]; lia].
  eapply fin_bind; [apply fin_is_set|]. intros bit B. cbv beta in B.
  eapply fin_bind; [apply fin_bm_append|]. intros dst1 L. cbv beta in L.
  eapply fin_weaken; [apply IH; lia|]. intros r X. cbv beta in X. lia.
Qed.

(** How many rows the validity bitmap of a buffer covers. *)
Definition validity_len (v : option bitmap) : nat := match v with Some b => bm_len b | None => 0 end.

Lemma fin_validity dst src pos n :
  fin (validity_append_from dst src pos n) (fun r => validity_len (fst r) <= validity_len dst + validity_len src).
Proof.
  unfold validity_append_from. destruct src as [vs|], dst as [vd|]; try exact I.
  - unfold bm_append_from. eapply fin_bind; [apply fin_bm_append_from_loop; lia|]. intros r X. cbv beta in X. cbn [fin fst validity_len]. lia.
  - cbn [fin fst validity_len]. lia.
Qed.

(** ** What is asked of a buffer *)

(** At most [n] rows in the validity bitmap, 32-bit offsets, at least one of
    them: what every buffer made with [new], [append], [append_null] and
    [clear] is, see [bin_fits_new] and so on. *)
Definition bin_fits (n : nat) (b : bin_buf) : Prop :=
  validity_len (bb_validity b) <= n /\ bb_offsets b <> [] /\ Forall (fun o => (o < 4294967296)%N) (bb_offsets b).

(** A number of rows no memory holds a bitmap for. *)
Definition rows_bound : N := 4611686018427387904.

Lemma room_of n : (N.of_nat n < rows_bound)%N -> room (S (S n)).
Proof. unfold rows_bound, room, u64_lim. lia. Qed.

Lemma bin_fits_le n n' b : n <= n' -> bin_fits n b -> bin_fits n' b.
Proof. intros L (A & B & C). split; [lia|auto]. Qed.

Lemma bin_fits_new nullable : bin_fits 0 (bb_new nullable).
Proof.
  split; [destruct nullable; cbn [bb_new bb_validity new_validity validity_len bm_new bm_len]; lia|]. split; [discriminate|].
  cbn [bb_new bb_offsets]. constructor; [reflexivity|constructor].
Qed.

Lemma bin_fits_clear n b : bin_fits n b -> bin_fits 0 (bb_clear b).
Proof.
  intros (A & B & C). split; [|split].
  - cbn [bb_clear bb_validity]. destruct (bb_validity b); cbn [option_map validity_len bm_clear bm_len]; lia.
  - cbn [bb_clear bb_offsets]. destruct (bb_offsets b); [congruence|discriminate].
  - cbn [bb_clear bb_offsets]. destruct (bb_offsets b) as [|o os]; [congruence|]. apply Forall_cons_iff in C. cbn [firstn]. constructor; [apply C|constructor].
Qed.

Lemma bin_fits_append n b v b' : bin_fits n b -> bb_append b v = Ret b' -> bin_fits (S n) b'.
Proof.
  intros (A & B & C) E. unfold bb_append in E. cbv zeta in E. destruct (N.leb_spec (N.of_nat (length (bb_data b ++ v))) u32_max) as [L|L]; [|discriminate E].
  unfold validity_append in E.
  assert (F : Forall (fun o => (o < 4294967296)%N) (bb_offsets b ++ [N.of_nat (length (bb_data b ++ v))])).
  { apply Forall_app. split; [exact C|]. constructor; [unfold u32_max in L; lia|constructor]. }
  assert (NE : bb_offsets b ++ [N.of_nat (length (bb_data b ++ v))] <> []) by (destruct (bb_offsets b); discriminate).
  destruct (bb_validity b) as [vb|] eqn:V.
  - pose proof (fin_bm_append vb true) as G. destruct (bm_append vb true) as [vb'|x|]; cbn [bind] in E; [|discriminate E|discriminate E].
    injection E as <-. cbn [fin validity_len] in G, A. split; [cbn [bb_validity validity_len]; lia|]. split; assumption.
  - cbn [bind] in E. injection E as <-. split; [cbn [bb_validity validity_len]; lia|]. split; assumption.
Qed.

Lemma bin_fits_append_null n b b' : bin_fits n b -> bb_append_null b = Ret b' -> bin_fits (S n) b'.
Proof.
  intros (A & B & C) E. unfold bb_append_null, validity_append_null in E.
  destruct (bb_validity b) as [vb|] eqn:V; [|discriminate E].
  pose proof (fin_bm_append vb false) as G. destruct (bm_append vb false) as [vb'|x|]; cbn [bind] in E; [|discriminate E|discriminate E].
  injection E as <-. cbn [fin validity_len] in G, A. split; [cbn [bb_validity validity_len]; lia|]. split; assumption.
Qed.

(** ** The binary encoder *)

Lemma fin_item_len p b i : Forall (fun o => (o < 4294967296)%N) (bb_offsets b) -> fin (bb_item_len p b i) (fun l => (l < 4294967296)%N).
Proof.
  intros F. unfold bb_item_len. eapply fin_bind; [apply fin_idx|]. intros hi [_ HI]. eapply fin_bind; [apply fin_idx|]. intros lo _.
  apply fin_usub. rewrite Forall_forall in F. exact (F hi HI).
Qed.

Lemma fin_push_offsets p buf count : Forall (fun o => (o < 4294967296)%N) (bb_offsets buf) -> forall i last offs,
  offs <> [] -> Forall (fun o => (o < 4294967296)%N) offs ->
  fin (bb_push_offsets p buf i count last offs) (fun r => r <> [] /\ Forall (fun o => (o < 4294967296)%N) r).
Proof.
  intros FB. induction count as [|count IH]; intros i last offs NE F; cbn [bb_push_offsets]; [cbn [fin]; auto|].
  eapply fin_bind; [apply fin_item_len; exact FB|]. intros len _.
  eapply fin_bind; [apply fin_uadd; reflexivity|]. intros last1 L. cbv beta in L.
  apply IH; [destruct offs; discriminate|]. apply Forall_app. split; [exact F|]. constructor; [exact L|constructor].
Qed.

Lemma fin_bin_append_from n k p b buf start end_ pos : bin_fits n b -> bin_fits k buf ->
  fin (bb_append_from p b buf start end_ pos) (fun r => bin_fits (n + k) (fst r)).
Proof.
  intros (A & B & C) (A2 & B2 & C2). unfold bb_append_from.
  eapply fin_bind; [apply fin_idx|]. intros so _. eapply fin_bind; [apply fin_idx|]. intros eo _.
  eapply fin_bind; [apply fin_usub_any|]. intros cl _.
  eapply fin_bind; [apply fin_push_offsets; [exact C2|exact B|exact C]|]. intros offs [O1 O2].
  eapply fin_bind; [apply fin_slice|]. intros chunk _. cbv zeta. destruct (_ <? u32_max)%N; [|exact I].
  eapply fin_bind; [apply fin_validity|]. intros r V. cbv beta in V. cbn [fin fst]. split; [cbn [bb_validity]; lia|]. split; assumption.
Qed.

Lemma fin_find p offs so min : forall i, fin (find_offset p offs so min i) (fun r => match r with
  | Some (j, o) => i <= j < i + length offs /\ In o offs | None => True end).
Proof.
  induction offs as [|o offs IH]; intros i; cbn [find_offset]; [exact I|].
  eapply fin_bind; [apply fin_usub_any|]. intros d _. destruct (min <=? d)%N.
  - cbn [fin length In]. split; [lia|auto].
  - eapply fin_weaken; [apply IH|]. intros [[j x]|]; [|auto]. cbn [length In]. intros [L H]. split; [lia|auto].
Qed.

Lemma In_skipn {A} (x : A) n l : In x (skipn n l) -> In x l.
Proof. intros H. rewrite <- (firstn_skipn n l). apply in_or_app. right. exact H. Qed.

Lemma fin_be_chunk n p buf start min : bin_fits n buf ->
  fin (be_chunk p buf start min) (fun c => bc_start c = start /\ bc_end c <= length (bb_offsets buf) - 1 /\ (bc_size c < u64_lim)%N).
Proof.
  intros (A & B & C). unfold be_chunk. cbv zeta. eapply fin_bind; [apply fin_idx|]. intros so [SL SI].
  eapply fin_bind; [apply fin_find|]. intros found FO. cbv beta in FO.
  apply fin_bind with (Q := fun e => fst e <= length (bb_offsets buf) - 1 /\ In (snd e) (bb_offsets buf)).
  { destruct found as [[j o]|]; cbn [fin fst snd].
    - destruct FO as [FL FI]. rewrite skipn_length in FL. split; [lia|]. exact (In_skipn _ _ _ FI).
    - eapply fin_bind; [apply fin_idx|]. intros o [_ OI]. cbn [fin fst snd]. auto. }
  intros [ep eo] [EL EI]. cbn [fst snd] in EL, EI. rewrite Forall_forall in C.
  eapply fin_bind; [apply fin_usub; exact (C eo EI)|]. intros size SZ. cbv beta in SZ.
  eapply fin_bind; [apply fin_usub_any|]. intros len _. cbn [fin bc_start bc_end bc_size]. unfold u32_lim, u64_lim in *. split; [reflexivity|]. split; [exact EL|lia].
Qed.

Lemma fin_item_lens n p buf count : bin_fits n buf -> forall i, fin (item_lens p buf i count) (fun l => length l = count).
Proof.
  intros (A & B & C). induction count as [|count IH]; intros i; cbn [item_lens]; [reflexivity|].
  eapply fin_bind; [apply fin_item_len; exact C|]. intros l _. eapply fin_bind; [apply IH|]. intros r L. cbv beta in L. cbn [fin length]. lia.
Qed.

Lemma fin_off_chunks b : forall cs dst start, fin (off_chunks cs dst start b) (fun _ => True).
Proof.
  induction cs as [|c cs IH]; intros dst start; cbn [off_chunks]; [exact I|].
  eapply fin_bind; [apply fin_slice_from|]. intros out _. apply fin_bind with (Q := fun _ => True); [|intros r _; apply IH].
  unfold bp_compress. destruct (b =? 0); [exact I|]. destruct (_ =? BLOCK_LEN); [|exact I]. destruct (_ <=? _); exact I.
Qed.

Lemma fin_off_encode p src dst : fin (off_encode p src dst) (fun _ => 0 < length src).
Proof.
  destruct src as [|x src].
  { rewrite off_encode_panics; [exact I|left; reflexivity|reflexivity]. }
  apply fin_weaken with (Q := fun _ => True); [|intros; cbn [length]; lia].
  unfold off_encode. cbv zeta. apply fin_bind with (Q := fun _ => True).
  { unfold round_upto_power_of_2. apply fin_bind with (Q := fun _ => True); [destruct p; [destruct (_ && _)|]; exact I|]. intros _ _. repeat (eapply fin_bind; [apply fin_uadd_any || apply fin_usub_any|intros ? _]). exact I. }
  intros lp _. apply fin_bind with (Q := fun _ => True); [unfold bp_num_bits; destruct (_ =? BLOCK_LEN); exact I|].
  intros b _. eapply fin_bind; [apply fin_off_chunks|]. intros d _. exact I.
Qed.

Lemma fin_encode_binary n p buf c pos rle : (N.of_nat n < rows_bound)%N -> bin_fits n buf -> (bc_size c < u64_lim)%N ->
  fin (encode_binary_buffer p buf c pos rle) (fun _ => bc_start c < bc_end c).
Proof.
  intros NB BF SZ. unfold encode_binary_buffer. eapply fin_bind; [apply fin_put_varint; exact SZ|]. intros enc _.
  eapply fin_bind; [apply fin_slice|]. intros data _. eapply fin_bind; [apply fin_item_lens with (n := n); exact BF|]. intros deltas DL. cbv beta in DL.
  eapply fin_bind; [apply fin_off_encode|]. intros r RL. cbv beta in RL. cbv zeta. assert (LT : bc_start c < bc_end c) by lia.
  destruct BF as (A & _). destruct (bb_validity buf) as [v|]; [|exact LT]. cbn [validity_len] in A.
  pose proof (room_of n NB) as RO.
  eapply fin_bind; [apply fin_put_from; unfold room in *; lia|]. intros r1 SM. cbv beta in SM.
  eapply fin_bind; [apply fin_flush with (m := S (bm_len v)); [unfold room in *; lia|exact SM]|]. intros r2 _. exact LT.
Qed.

Section Bin.
Context {S0 : Type} (wr : sink_fn S0) (p : profile).

Lemma fin_be_write n e buf c pos s : (N.of_nat n < rows_bound)%N -> bin_fits n buf -> (bc_size c < u64_lim)%N ->
  fin (be_write wr p e buf c pos s) (fun r => bc_start c < bc_end c /\ be_remaining (fst (fst r)) = be_remaining e).
Proof.
  intros NB BF SZ. unfold be_write. eapply fin_bind; [apply fin_encode_binary with (n := n); assumption|].
  intros [[enc rle] [nr lv]] LT. cbv beta in LT. apply fin_bind with (Q := fun _ => True).
  { unfold be_add_rows. destruct (_ <=? u32_max)%N; [|exact I]. destruct (_ <=? u32_max)%N; exact I. }
  intros rows _. eapply fin_bind; [apply fin_usub_any|]. intros id _. cbn [fin fst be_remaining]. auto.
Qed.

Lemma fin_be_write_remaining n e s : (N.of_nat n < rows_bound)%N -> bin_fits n (be_remaining e) ->
  fin (be_write_remaining wr p e s) (fun r => be_remaining (fst (fst r)) = be_remaining e).
Proof.
  intros NB BF. unfold be_write_remaining. cbv zeta. eapply fin_bind; [apply fin_idx|]. intros eo [_ EI].
  eapply fin_weaken; [apply fin_be_write with (n := n); [exact NB|exact BF|]|].
  - cbn [bc_size]. destruct BF as (_ & _ & C). rewrite Forall_forall in C. specialize (C eo EI). cbv beta in C. unfold u64_lim. lia.
  - intros r [_ X]. exact X.
Qed.

Lemma fin_be_loop n k buffer : (N.of_nat k < rows_bound)%N -> bin_fits k buffer -> forall fuel e pos vpos s,
  0 < fuel -> length (bb_offsets buffer) <= fuel + pos -> bin_fits n (be_remaining e) ->
  fin (be_loop wr p fuel e buffer pos vpos s) (fun r => bin_fits (n + k) (be_remaining (fst (fst r)))).
Proof.
  intros NB BF. induction fuel as [|fuel IH]; intros e pos vpos s P F RF; [lia|]. cbn [be_loop].
  destruct (Nat.ltb_spec pos (length (bb_offsets buffer))) as [L|L]; [|cbn [fin fst]; apply (bin_fits_le n); [lia|exact RF]].
  eapply fin_bind; [apply fin_be_chunk with (n := k); exact BF|]. intros c (C1 & C2 & C3).
  destruct (bc_size c <? be_min e)%N.
  - eapply fin_bind; [apply fin_bin_append_from; [exact RF|exact BF]|]. intros r X. cbv beta in X. cbn [fin fst be_set_remaining be_remaining]. exact X.
  - eapply fin_bind; [apply fin_be_write with (n := k); assumption|]. intros [[e1 s1] res] [X1 X2]. cbn [fst] in X2.
    destruct res as [lv|]; [|cbn [fin fst]; rewrite X2; apply (bin_fits_le n); [lia|exact RF]].
    apply IH; [lia|lia|rewrite X2; exact RF].
Qed.

Lemma fin_be_encode n k fuel e buffer s : (N.of_nat (n + k) < rows_bound)%N -> bin_fits n (be_remaining e) -> bin_fits k buffer ->
  length (bb_offsets buffer) <= fuel ->
  fin (be_encode wr p fuel e buffer s) (fun r => bin_fits (n + k) (be_remaining (fst (fst r)))).
Proof.
  intros NB RF BF F. assert (P : 0 < fuel) by (destruct BF as (_ & B & _); destruct (bb_offsets buffer); [congruence|cbn [length] in F; lia]).
  unfold be_encode. destruct (0 <? bb_len (be_remaining e)).
  - cbv zeta. eapply fin_bind; [apply fin_usub_any|]. intros want _.
    eapply fin_bind; [apply fin_be_chunk with (n := k); exact BF|]. intros c (C1 & C2 & C3).
    eapply fin_bind; [apply fin_bin_append_from; [exact RF|exact BF]|]. intros r X. cbv beta in X.
    destruct (_ <? be_min _)%N; [exact X|].
    eapply fin_bind; [apply fin_be_write_remaining with (n := n + k); [exact NB|exact X]|]. intros [[e1 s1] res] X2. cbn [fst be_set_remaining be_remaining] in X2.
    destruct res as [lv|]; [|cbn [fin fst]; rewrite X2; exact X].
    eapply fin_weaken; [apply fin_be_loop with (n := 0) (k := k); [lia|exact BF|exact P|lia|]|].
    + cbn [be_set_remaining be_remaining]. rewrite X2. exact (bin_fits_clear _ _ X).
    + intros r2 X3. apply (bin_fits_le (0 + k)); [lia|exact X3].
  - apply fin_be_loop; [lia|exact BF|exact P|lia|exact RF].
Qed.

Lemma fin_be_flush n e s : (N.of_nat n < rows_bound)%N -> bin_fits n (be_remaining e) ->
  fin (be_flush wr p e s) (fun r => bin_fits n (be_remaining (fst (fst r)))).
Proof.
  intros NB RF. unfold be_flush. destruct (0 <? bb_len (be_remaining e)); [|exact RF].
  eapply fin_bind; [apply fin_be_write_remaining with (n := n); assumption|]. intros [[e1 s1] res] X. cbn [fst] in X. cbn [fin fst]. rewrite X. exact RF.
Qed.

(** More steps change nothing. *)
Lemma be_loop_mono buffer : forall fuel fuel' e pos vpos s, fuel <= fuel' -> be_loop wr p fuel e buffer pos vpos s <> NoFuel ->
  be_loop wr p fuel' e buffer pos vpos s = be_loop wr p fuel e buffer pos vpos s.
Proof.
  induction fuel as [|fuel IH]; intros fuel' e pos vpos s L NF; [destruct (NF eq_refl)|].
  destruct fuel' as [|fuel']; [lia|]. cbn [be_loop] in NF |- *. destruct (pos <? length (bb_offsets buffer)); [|reflexivity].
  destruct (be_chunk p buffer pos (be_min e)) as [c|x|]; cbn [bind] in NF |- *; [|reflexivity|reflexivity].
  destruct (bc_size c <? be_min e)%N; [reflexivity|].
  destruct (be_write wr p e buffer c vpos s) as [[[e1 s1] [lv|]]|x|]; cbn [bind] in NF |- *; try reflexivity.
  apply IH; [lia|exact NF].
Qed.

Lemma be_encode_mono buffer fuel fuel' e s : fuel <= fuel' -> be_encode wr p fuel e buffer s <> NoFuel ->
  be_encode wr p fuel' e buffer s = be_encode wr p fuel e buffer s.
Proof.
  intros L NF. unfold be_encode in *. destruct (0 <? bb_len (be_remaining e)); [|apply be_loop_mono; assumption].
  cbv zeta in NF |- *. destruct (sub64 _ _ _) as [want|x|]; cbn [bind] in NF |- *; try reflexivity.
  destruct (be_chunk p buffer 0 want) as [c|x|]; cbn [bind] in NF |- *; try reflexivity.
  destruct (bb_append_from _ _ _ _ _ _) as [r|x|]; cbn [bind] in NF |- *; try reflexivity.
  destruct (_ <? _)%N; [reflexivity|].
  destruct (be_write_remaining _ _ _ _) as [[[e1 s1] [lv|]]|x|]; cbn [bind] in NF |- *; try reflexivity.
  apply be_loop_mono; assumption.
Qed.

(** ** The encoders of a column *)

Definition enc_fits (n : nat) (e : bin_encoder) : Prop := match e with RawEnc e => bin_fits n (be_remaining e) | SnappyEnc => True end.

Lemma fin_bin_encode n k e buffer s : (N.of_nat (n + k) < rows_bound)%N -> enc_fits n e -> bin_fits k buffer ->
  fin (bin_encode wr p e buffer s) (fun r => enc_fits (n + k) (fst (fst r))).
Proof.
  intros NB EF BF. destruct e as [e|]; cbn [bin_encode enc_fits] in *; [|exact I].
  eapply fin_bind; [apply fin_be_encode with (n := n) (k := k); [exact NB|exact EF|exact BF|lia]|]. intros [[e1 s1] res] X. exact X.
Qed.

Lemma fin_bin_flush n e s : (N.of_nat n < rows_bound)%N -> enc_fits n e -> fin (bin_flush wr p e s) (fun r => enc_fits n (fst (fst r))).
Proof.
  intros NB EF. destruct e as [e|]; cbn [bin_flush enc_fits] in *; [|exact I].
  eapply fin_bind; [apply fin_be_flush with (n := n); assumption|]. intros [[e1 s1] res] X. exact X.
Qed.
End Bin.

(** ** The fixed width encoder *)

Definition prim_fits (n : nat) (b : prim_buf N) : Prop := length (pb_values b) <= n /\ validity_len (pb_validity b) <= n.

Lemma prim_fits_le n n' b : n <= n' -> prim_fits n b -> prim_fits n' b.
Proof. unfold prim_fits. lia. Qed.

Lemma prim_fits_new nullable : prim_fits 0 (pb_new nullable).
Proof. split; [cbn [pb_new pb_values length]; lia|]. destruct nullable; cbn [pb_new pb_validity new_validity validity_len bm_new bm_len]; lia. Qed.

Lemma prim_fits_append n b v b' : prim_fits n b -> pb_append b v = Ret b' -> prim_fits (S n) b'.
Proof.
  intros (A & B) E. unfold pb_append, validity_append in E.
  destruct (pb_validity b) as [vb|] eqn:V.
  - pose proof (fin_bm_append vb true) as G. destruct (bm_append vb true) as [vb'|x|]; cbn [bind] in E; [|discriminate E|discriminate E].
    injection E as <-. cbn [fin validity_len] in G, B. split; cbn [pb_values pb_validity validity_len]; [rewrite app_length; cbn [length]|]; lia.
  - cbn [bind] in E. injection E as <-. split; cbn [pb_values pb_validity validity_len]; [rewrite app_length; cbn [length]|]; lia.
Qed.

Lemma prim_fits_append_null n b b' : prim_fits n b -> pb_append_null b = Ret b' -> prim_fits (S n) b'.
Proof.
  intros (A & B) E. unfold pb_append_null, validity_append_null in E.
  destruct (pb_validity b) as [vb|] eqn:V; [|discriminate E].
  pose proof (fin_bm_append vb false) as G. destruct (bm_append vb false) as [vb'|x|]; cbn [bind] in E; [|discriminate E|discriminate E].
  injection E as <-. cbn [fin validity_len] in G, B. split; cbn [pb_values pb_validity validity_len]; lia.
Qed.

Lemma prim_fits_clear n b : prim_fits n b -> prim_fits 0 (pb_clear b).
Proof.
  intros (A & B). split; cbn [pb_clear pb_values pb_validity length]; [lia|].
  destruct (pb_validity b); cbn [option_map validity_len bm_clear bm_len]; lia.
Qed.

Lemma fin_prim_append_from n k b buf start end_ pos : prim_fits n b -> prim_fits k buf ->
  fin (pb_append_from b buf start end_ pos) (fun r => prim_fits (n + k) (fst r)).
Proof.
  intros (A & B) (A2 & B2). unfold pb_append_from.
  destruct (slice (pb_values buf) start end_) as [chunk|x|] eqn:SL; cbn [bind]; [|exact I|].
  2:{ unfold slice in SL. destruct (_ && _); discriminate SL. }
  assert (CL : length chunk <= k).
  { unfold slice in SL. destruct (_ && _); [|discriminate SL]. injection SL as <-. rewrite firstn_length, skipn_length. lia. }
  cbv zeta. destruct (_ <? u32_max)%N; [|exact I].
  eapply fin_bind; [apply fin_validity|]. intros r V. cbv beta in V. cbn [fin fst].
  split; cbn [pb_values pb_validity]; [rewrite app_length|]; lia.
Qed.

Section Prim.
Context {S0 : Type} (wr : sink_fn S0) (p : profile) (sz : nat).

Definition prim_bound (n : nat) : Prop := (N.of_nat n < 1152921504606846976)%N.

Lemma fin_pe_write n e buf start end_ pos s : sz <= 8 -> prim_bound n -> prim_fits n buf -> end_ <= pb_len buf ->
  fin (pe_write wr p sz e buf start end_ pos s) (fun r => pe_remaining (fst (fst r)) = pe_remaining e /\ pe_min (fst (fst r)) = pe_min e).
Proof.
  intros SZ NB (A & B) L. unfold prim_bound in NB. unfold pe_write. apply fin_bind with (Q := fun _ => True).
  - unfold encode_primitive_buffer. cbv zeta. unfold pb_len in L.
    assert (sz * (end_ - start) <= 8 * n) by nia.
    eapply fin_bind; [apply fin_put_varint; unfold u64_lim; lia|]. intros enc _. eapply fin_bind; [apply fin_slice|]. intros vs _.
    destruct (pb_validity buf) as [v|]; [|exact I]. cbn [validity_len] in B.
    eapply fin_bind; [apply fin_put_from; unfold room, u64_lim; lia|]. intros r1 SM. cbv beta in SM.
    eapply fin_bind; [apply fin_flush with (m := S (bm_len v)); [unfold room, u64_lim; lia|exact SM]|]. intros r2 _. exact I.
  - intros [[enc rle] [nr lv]] _. apply fin_bind with (Q := fun _ => True).
    { unfold pe_add_rows. destruct (_ <=? u32_max)%N; [|exact I]. destruct (_ <=? u32_max)%N; exact I. }
    intros rows _. eapply fin_bind; [apply fin_usub_any|]. intros id _. cbn [fin fst pe_remaining pe_min]. auto.
Qed.

Lemma fin_pe_chunk len start min : fin (pe_chunk p sz len start min) (fun c => c <= len).
Proof.
  unfold pe_chunk. cbv zeta. eapply fin_bind; [apply fin_uadd_any|]. intros e _. cbn [fin]. destruct (N.ltb_spec (N.of_nat len) e); lia.
Qed.

Lemma fin_pe_loop n k buffer : sz <= 8 -> prim_bound k -> prim_fits k buffer -> forall fuel e pos vpos s,
  0 < fuel -> pb_len buffer < fuel + pos -> (0 < pe_min e)%N -> prim_fits n (pe_remaining e) ->
  fin (pe_loop wr p sz fuel e buffer pos vpos s) (fun r => prim_fits (n + k) (pe_remaining (fst (fst r)))).
Proof.
  intros SZ NB BF. induction fuel as [|fuel IH]; intros e pos vpos s P F M RF; [lia|]. cbn [pe_loop].
  destruct (Nat.ltb_spec pos (pb_len buffer)) as [L|L]; [|cbn [fin fst]; apply (prim_fits_le n); [lia|exact RF]].
  eapply fin_bind; [apply fin_pe_chunk|]. intros ce CE. cbv beta zeta in CE |- *.
  destruct (N.ltb_spec (N.of_nat ((ce - pos) * sz)) (pe_min e)) as [C|C].
  - eapply fin_bind; [apply fin_prim_append_from; [exact RF|exact BF]|]. intros r X. exact X.
  - assert (pos < ce) by (destruct (Nat.le_gt_cases ce pos) as [Q|Q]; [|exact Q]; replace (ce - pos) with 0 in C by lia; lia).
    eapply fin_bind; [apply fin_pe_write with (n := k); assumption|]. intros [[e1 s1] res] [X1 X2]. cbn [fst] in X1, X2.
    destruct res as [lv|]; [|cbn [fin fst]; rewrite X1; apply (prim_fits_le n); [lia|exact RF]].
    apply IH; [lia|lia|rewrite X2; exact M|rewrite X1; exact RF].
Qed.

Lemma fin_pe_encode n k fuel e buffer s : sz <= 8 -> prim_bound (n + k) -> prim_fits n (pe_remaining e) -> prim_fits k buffer ->
  pb_len buffer < fuel -> (0 < pe_min e)%N ->
  fin (pe_encode wr p sz fuel e buffer s) (fun r => prim_fits (n + k) (pe_remaining (fst (fst r)))).
Proof.
  intros SZ NB RF BF F M. assert (NK : prim_bound k) by (unfold prim_bound in *; lia). unfold pe_encode. destruct (0 <? pb_len (pe_remaining e)).
  - cbv zeta. eapply fin_bind; [apply fin_usub_any|]. intros want _.
    eapply fin_bind; [apply fin_pe_chunk|]. intros ce CE. cbv beta in CE.
    eapply fin_bind; [apply fin_prim_append_from; [exact RF|exact BF]|]. intros r X. cbv beta in X.
    destruct (_ <? pe_min _)%N; [exact X|]. unfold pe_write_remaining.
    eapply fin_bind; [apply fin_pe_write with (n := n + k); [exact SZ|exact NB|exact X|apply Nat.le_refl]|].
    intros [[e1 s1] res] [X1 X2]. cbn [fst pe_set_remaining pe_remaining pe_min] in X1, X2.
    destruct res as [lv|]; [|cbn [fin fst]; rewrite X1; exact X].
    eapply fin_weaken; [apply fin_pe_loop with (n := 0) (k := k); [exact SZ|exact NK|exact BF|lia|lia| |]|].
    + cbn [pe_set_remaining pe_min]. rewrite X2. exact M.
    + cbn [pe_set_remaining pe_remaining]. rewrite X1. exact (prim_fits_clear _ _ X).
    + intros r2 X3. apply (prim_fits_le (0 + k)); [lia|exact X3].
  - apply fin_pe_loop; [exact SZ|exact NK|exact BF|lia|lia|exact M|exact RF].
Qed.

Lemma fin_pe_flush n e s : sz <= 8 -> prim_bound n -> prim_fits n (pe_remaining e) ->
  fin (pe_flush wr p sz e s) (fun r => prim_fits n (pe_remaining (fst (fst r)))).
Proof.
  intros SZ NB RF. unfold pe_flush. destruct (0 <? pb_len (pe_remaining e)); [|exact RF]. unfold pe_write_remaining.
  eapply fin_bind; [apply fin_pe_write with (n := n); [exact SZ|exact NB|exact RF|apply Nat.le_refl]|].
  intros [[e1 s1] res] [X _]. cbn [fst] in X. cbn [fin fst]. rewrite X. exact RF.
Qed.

Lemma pe_loop_mono buffer : forall fuel fuel' e pos vpos s, fuel <= fuel' -> pe_loop wr p sz fuel e buffer pos vpos s <> NoFuel ->
  pe_loop wr p sz fuel' e buffer pos vpos s = pe_loop wr p sz fuel e buffer pos vpos s.
Proof.
  induction fuel as [|fuel IH]; intros fuel' e pos vpos s L NF; [destruct (NF eq_refl)|].
  destruct fuel' as [|fuel']; [lia|]. cbn [pe_loop] in NF |- *. destruct (pos <? pb_len buffer); [|reflexivity].
  destruct (pe_chunk p sz (pb_len buffer) pos (pe_min e)) as [c|x|]; cbn [bind] in NF |- *; [|reflexivity|reflexivity]. cbv zeta in NF |- *.
  destruct (_ <? pe_min e)%N; [reflexivity|].
  destruct (pe_write wr p sz e buffer pos c vpos s) as [[[e1 s1] [lv|]]|x|]; cbn [bind] in NF |- *; try reflexivity.
  apply IH; [lia|exact NF].
Qed.

Lemma pe_encode_mono buffer fuel fuel' e s : fuel <= fuel' -> pe_encode wr p sz fuel e buffer s <> NoFuel ->
  pe_encode wr p sz fuel' e buffer s = pe_encode wr p sz fuel e buffer s.
Proof.
  intros L NF. unfold pe_encode in *. destruct (0 <? pb_len (pe_remaining e)); [|apply pe_loop_mono; assumption].
  cbv zeta in NF |- *. destruct (sub64 _ _ _) as [want|x|]; cbn [bind] in NF |- *; try reflexivity.
  destruct (pe_chunk _ _ _ _ _) as [c|x|]; cbn [bind] in NF |- *; try reflexivity.
  destruct (pb_append_from _ _ _ _ _) as [r|x|]; cbn [bind] in NF |- *; try reflexivity.
  destruct (_ <? _)%N; [reflexivity|].
  destruct (pe_write_remaining _ _ _ _ _) as [[[e1 s1] [lv|]]|x|]; cbn [bind] in NF |- *; try reflexivity.
  apply pe_loop_mono; assumption.
Qed.
End Prim.

(** ** Columns and segments *)

(** A bound on the number of rows a column is given. *)
Fixpoint given (ops : list col_op) : nat :=
  match ops with
  | [] => 0
  | CWrite b :: rest => validity_len (bb_validity b) + given rest
  | CClose :: rest => given rest
  end.

(** Offsets of 32 bits, at least one, and a number of rows that fits memory. *)
Definition column_fits (ops : list col_op) : Prop :=
  Forall (fun o => match o with CWrite b => bb_offsets b <> [] /\ Forall (fun x => (x < 4294967296)%N) (bb_offsets b) | CClose => True end) ops /\
  (N.of_nat (given ops) < rows_bound)%N.

Lemma fin_column_run p : forall ops n w sg cw,
  Forall (fun o => match o with CWrite b => bb_offsets b <> [] /\ Forall (fun x => (x < 4294967296)%N) (bb_offsets b) | CClose => True end) ops ->
  (N.of_nat (n + given ops) < rows_bound)%N -> enc_fits n (cw_encoder cw) -> fin (column_run p w sg cw ops) (fun _ => True).
Proof.
  induction ops as [|o ops IH]; intros n w sg cw F NB EF; cbn [column_run]; [exact I|]. apply Forall_cons_iff in F. destruct F as [F1 F2].
  destruct o as [b|]; cbn [column_step given] in *.
  - apply fin_bind with (Q := fun r => enc_fits (n + validity_len (bb_validity b)) (cw_encoder (snd (fst r)))).
    + unfold column_write. eapply fin_bind; [apply fin_bin_encode with (n := n) (k := validity_len (bb_validity b)); [lia|exact EF|split; [lia|exact F1]]|].
      intros [[e [[w1 dt] bi]] res] X. exact X.
    + intros [[[w1 sg1] cw1] res] X. cbn [fst snd] in X. eapply fin_bind; [apply IH with (n := n + validity_len (bb_validity b)); [exact F2|lia|exact X]|].
      intros [[w2 sg2] more] _. exact I.
  - apply fin_bind with (Q := fun r => enc_fits n (cw_encoder (snd (fst r)))).
    + unfold column_close. eapply fin_bind; [apply fin_bin_flush with (n := n); [lia|exact EF]|].
      intros [[e [[w1 dt] bi]] res] X. cbn [fst] in X. cbv zeta. destruct res as [lay|]; [|exact X]. destruct (md_segment_meta (sg_meta sg)); [exact X|exact I].
    + intros [[[w1 sg1] cw1] res] X. cbn [fst snd] in X. eapply fin_bind; [apply IH with (n := n); [exact F2|lia|exact X]|].
      intros [[w2 sg2] more] _. exact I.
Qed.

Definition segment_fits (ops : list seg_op) : Prop :=
  Forall (fun o => match o with SColumn _ cops => column_fits cops | SClose _ => True end) ops.

Lemma fin_seg_run p : forall ops w sg, segment_fits ops -> fin (seg_run p w sg ops) (fun _ => True).
Proof.
  induction ops as [|o ops IH]; intros w sg F; cbn [seg_run]; [exact I|]. apply Forall_cons_iff in F. destruct F as [F1 F2].
  apply fin_bind with (Q := fun _ => True).
  - destruct o as [ci cops|it]; cbn [seg_step].
    + unfold new_binary_column_writer. cbv zeta. unfold new_binary_encoder.
      destruct (ci_encoding ci); try exact I; (eapply fin_bind; [|intros [[w1 sg1] reports] _; exact I]); destruct F1 as [F1 NB];
        (apply fin_column_run with (n := 0); [exact F1|exact NB|]); cbn [cw_encoder enc_fits]; [apply bin_fits_new|exact I].
    + destruct (segment_close w sg it) as [[w1 sg1] r]. exact I.
  - intros [[w1 sg1] reports] _. eapply fin_bind; [apply IH; exact F2|]. intros [[w2 sg2] more] _. exact I.
Qed.

(** ** C78 *)

(** A loop that is given a number of steps comes to an end: from some number of
    steps on, more steps make no difference. *)
Definition comes_to_end {A} (call : nat -> outcome A) : Prop := exists n r, r <> NoFuel /\ forall m, n <= m -> call m = r.

(** [encode] and [flush] of the binary encoder come to an end, with any sink,
    any block size and any contents; [length (bb_offsets buffer)] rounds of the
    loop are enough. *)
Theorem C78_binary : forall (S0 : Type) (wr : sink_fn S0) p e buffer s n k,
  bin_fits n (be_remaining e) -> bin_fits k buffer -> (N.of_nat (n + k) < rows_bound)%N ->
  comes_to_end (fun fuel => be_encode wr p fuel e buffer s)
  /\ bin_encode wr p (RawEnc e) buffer s <> NoFuel
  /\ be_flush wr p e s <> NoFuel.
Proof.
  intros S0 wr p e buffer s n k RF BF NB.
  pose proof (fin_be_encode wr p n k (length (bb_offsets buffer)) e buffer s NB RF BF (Nat.le_refl _)) as F. apply fin_not in F. split; [|split].
  - exists (length (bb_offsets buffer)), (be_encode wr p (length (bb_offsets buffer)) e buffer s). split; [exact F|].
    intros m L. apply be_encode_mono; assumption.
  - exact (fin_not _ _ (fin_bin_encode wr p n k (RawEnc e) buffer s NB RF BF)).
  - refine (fin_not _ _ (fin_be_flush wr p n e s _ RF)). lia.
Qed.
Print Assumptions C78_binary.

(** Whatever a program does with the columns of a segment, and whatever the file
    system does: every call comes to an end. *)
Theorem C78_segment : forall p ops w sg, segment_fits ops -> seg_run p w sg ops <> NoFuel.
Proof. intros p ops w sg F. exact (fin_not _ _ (fin_seg_run p ops w sg F)). Qed.
Print Assumptions C78_segment.

(** [encode] and [flush] of the fixed width encoder come to an end, provided the
    block size is not 0. *)
Theorem C78_fixed_width_partial : forall (S0 : Type) (wr : sink_fn S0) p sz e buffer s n k,
  sz <= 8 -> (0 < pe_min e)%N -> prim_fits n (pe_remaining e) -> prim_fits k buffer -> prim_bound (n + k) ->
  comes_to_end (fun fuel => pe_encode wr p sz fuel e buffer s)
  /\ pe_encode wr p sz (pb_len buffer + 1) e buffer s <> NoFuel
  /\ pe_flush wr p sz e s <> NoFuel.
Proof.
  intros S0 wr p sz e buffer s n k SZ M RF BF NB. assert (L1 : pb_len buffer < pb_len buffer + 1) by lia.
  pose proof (fin_pe_encode wr p sz n k (pb_len buffer + 1) e buffer s SZ NB RF BF L1 M) as F. apply fin_not in F. split; [|split].
  - exists (pb_len buffer + 1), (pe_encode wr p sz (pb_len buffer + 1) e buffer s). split; [exact F|].
    intros m L. apply pe_encode_mono; assumption.
  - exact F.
  - refine (fin_not _ _ (fin_pe_flush wr p sz n e s SZ _ RF)). unfold prim_bound in *. lia.
Qed.
Print Assumptions C78_fixed_width_partial.

(** ** Block size 0 *)

(** One round with block size 0: an empty block, and nothing of the buffer is
    used up. *)
Lemma zero_round {S0} (wr : sink_fn S0) p sz e buffer s : 0 < sz -> pe_min e = 0%N -> pe_rows e = 0%N ->
  pe_write wr p sz e buffer 0 0 0 s =
  match p with
  | Debug => Panic POverflow
  | Release =>
      Ret (mk_penc (pe_remaining e) [0%N] (match pb_validity buffer with Some _ => rle_clear (pe_bitmap e) | None => pe_bitmap e end) 0 0,
           fst (wr s 4294967295%N [0%N]), match snd (wr s 4294967295%N [0%N]) with Ok _ => Ok 0 | Err => Err end)
  end.
Proof.
  intros SZ M R. unfold pe_write, encode_primitive_buffer. cbv zeta. rewrite Nat.sub_diag, Nat.mul_0_r.
  rewrite put_varint_ok by reflexivity. rewrite bind_ret. rewrite slice_ok by lia. rewrite bind_ret. rewrite Nat.sub_diag. cbn [firstn].
  unfold to_byte_slice. cbn [flat_map]. rewrite app_nil_r. change ([] ++ varint_bytes (N.of_nat 0)) with [0%N].
  destruct (pb_validity buffer) as [v|].
  - unfold rle_put_from. cbn [rle_put_from_loop Nat.ltb Nat.leb bind fst snd]. unfold rle_flush. cbn [rle_clear re_bit_pos re_state re_byte Nat.ltb Nat.leb bind fst re_out app].
    unfold pe_add_rows. rewrite R. cbn [N.of_nat N.add N.leb N.compare u32_max bind]. rewrite M. destruct p; reflexivity.
  - cbn [bind]. unfold pe_add_rows. rewrite R. cbn [N.of_nat N.add N.leb N.compare u32_max bind]. rewrite M. destruct p; reflexivity.
Qed.

Lemma zero_chunk p sz len : 0 < sz -> 0 < len -> pe_chunk p sz len 0 0 = Ret 0.
Proof.
  intros SZ L. unfold pe_chunk. cbv zeta. rewrite N.div_0_l by lia. rewrite N.mod_0_l by lia.
  change (add64 p (N.of_nat 0) (0 + (if 0 =? 0 then 0 else 1))%N) with (Ret 0%N). rewrite bind_ret. destruct (N.ltb_spec (N.of_nat len) 0); [lia|]. reflexivity.
Qed.

Definition after_zero (e : prim_enc) (buffer : prim_buf N) : prim_enc :=
  mk_penc (pe_remaining e) [0%N] (match pb_validity buffer with Some _ => rle_clear (pe_bitmap e) | None => pe_bitmap e end) 0 0.

Lemma zero_step {S0} (wr : sink_fn S0) p sz fuel e buffer s : 0 < sz -> 0 < pb_len buffer -> pe_min e = 0%N -> pe_rows e = 0%N ->
  pe_loop wr p sz (S fuel) e buffer 0 0 s =
  match p with
  | Debug => Panic POverflow
  | Release =>
      match wr s 4294967295%N [0%N] with
      | (s1, Ok _) => pe_loop wr Release sz fuel (after_zero e buffer) buffer 0 0 s1
      | (s1, Err) => Ret (after_zero e buffer, s1, Err)
      end
  end.
Proof.
  intros SZ L M R. cbn [pe_loop]. destruct (Nat.ltb_spec 0 (pb_len buffer)); [|lia]. rewrite M, zero_chunk by assumption. rewrite bind_ret.
  cbv zeta. rewrite (Nat.sub_diag 0). change (N.of_nat (0 * sz) <? 0)%N with false. cbv iota. rewrite zero_round by assumption. destruct p; [reflexivity|].
  rewrite bind_ret. destruct (wr s 4294967295%N [0%N]) as [s1 [u|]]; reflexivity.
Qed.

Lemma zero_loop_forever {S0} (wr : sink_fn S0) sz buffer : (forall s, snd (wr s 4294967295%N [0%N]) = Ok tt) -> 0 < sz -> 0 < pb_len buffer ->
  forall fuel e s, pe_min e = 0%N -> pe_rows e = 0%N -> pe_loop wr Release sz fuel e buffer 0 0 s = NoFuel.
Proof.
  intros OK SZ L. induction fuel as [|fuel IH]; intros e s M R; [reflexivity|].
  rewrite zero_step by assumption. specialize (OK s). destruct (wr s 4294967295%N [0%N]) as [s1 r]. cbn [snd] in OK. rewrite OK.
  apply IH; reflexivity.
Qed.

(** A sink that takes [n] blocks and then fails. *)
Definition takes (n : nat) : sink_fn (list (N * list N)) :=
  fun blocks id data => if length blocks <? n then (blocks ++ [(id, data)], Ok tt) else (blocks, Err).

Lemma repeat_snoc {A} (x : A) n : repeat x n ++ [x] = repeat x (S n).
Proof. rewrite <- repeat_cons. reflexivity. Qed.

Lemma zero_loop_takes n sz buffer : 0 < sz -> 0 < pb_len buffer ->
  forall more fuel e, more <= n -> more < fuel -> pe_min e = 0%N -> pe_rows e = 0%N ->
  exists e', pe_loop (takes n) Release sz fuel e buffer 0 0 (repeat (4294967295%N, [0%N]) (n - more))
             = Ret (e', repeat (4294967295%N, [0%N]) n, Err).
Proof.
  intros SZ L. induction more as [|more IH]; intros fuel e LE F M R; (destruct fuel as [|fuel]; [lia|]);
    rewrite zero_step by assumption; unfold takes at 1; rewrite repeat_length.
  - rewrite Nat.sub_0_r, Nat.ltb_irrefl. eexists. reflexivity.
  - destruct (Nat.ltb_spec (n - S more) n) as [Q|Q]; [|lia]. rewrite repeat_snoc. replace (S (n - S more)) with (n - more) by lia.
    apply IH; [lia|lia|reflexivity|reflexivity].
Qed.

(** With block size 0 [encode] of any buffer with a value in it panics in a build
    with overflow checks.  In one without it writes empty blocks, all with row
    identifier 4294967295, until the sink fails, and does not come to an end if
    the sink never does. *)
Theorem C78_zero_block_size_refuted : forall sz nullable buffer, 0 < sz -> 0 < pb_len buffer ->
  (forall (S0 : Type) (wr : sink_fn S0) fuel s, (forall s, snd (wr s 4294967295%N [0%N]) = Ok tt) ->
     pe_encode wr Release sz fuel (pe_new 0 nullable) buffer s = NoFuel)
  /\ (forall n fuel, n < fuel -> exists e,
        pe_encode (takes n) Release sz fuel (pe_new 0 nullable) buffer [] = Ret (e, repeat (4294967295%N, [0%N]) n, Err))
  /\ (forall (S0 : Type) (wr : sink_fn S0) fuel s, 0 < fuel -> pe_encode wr Debug sz fuel (pe_new 0 nullable) buffer s = Panic POverflow).
Proof.
  intros sz nullable buffer SZ L. split; [|split].
  - intros S0 wr fuel s OK. unfold pe_encode. cbn [pe_new pe_remaining pb_new pb_len pb_values length Nat.ltb Nat.leb].
    apply zero_loop_forever; [exact OK|exact SZ|exact L|reflexivity|reflexivity].
  - intros n fuel F. unfold pe_encode. cbn [pe_new pe_remaining pb_new pb_len pb_values length Nat.ltb Nat.leb].
    destruct (zero_loop_takes n sz buffer SZ L n fuel (pe_new 0 nullable) (Nat.le_refl n) F eq_refl eq_refl) as (e & E).
    exists e. rewrite Nat.sub_diag in E. exact E.
  - intros S0 wr fuel s F. unfold pe_encode. cbn [pe_new pe_remaining pb_new pb_values length Nat.ltb Nat.leb]. destruct fuel as [|fuel]; [lia|].
    change (pb_len (mk_prim [] (new_validity nullable))) with 0. cbn [Nat.ltb Nat.leb].
    rewrite zero_step by (assumption || reflexivity). reflexivity.
Qed.
Print Assumptions C78_zero_block_size_refuted.

(** A row with a value, one without, and two blocks. *)
Example C78_witness :
  (exists b e, (let* b := bb_append (bb_new true) [1; 2; 3]%N in let* b := bb_append_null b in bb_append b (repeat 7%N 200)) = Ret b
     /\ bin_fits 3 b /\ segment_fits [SColumn (mkcinfo [97%N] TString Raw NoIndex true) [CWrite b; CClose]]
     /\ exists bs, be_encode collect Release 3 (be_new 128 true) b [] = Ret (e, bs, Ok tt) /\ length bs = 1)
  /\ (exists b e, (let* b := pb_append (pb_new true) 5%N in let* b := pb_append_null b in pb_append b 6%N) = Ret b
     /\ prim_fits 3 b /\ exists bs, pe_encode collect Release 8 3 (pe_new 8 true) b [] = Ret (e, bs, Ok tt) /\ length bs = 2)
  /\ (forall fuel, pe_encode collect Release 8 fuel (pe_new 0 false) (mk_prim [5%N] None) [] = NoFuel).
Proof.
  split; [|split].
  - destruct (let* b := bb_append (bb_new true) [1; 2; 3]%N in let* b := bb_append_null b in bb_append b (repeat 7%N 200)) as [b|x|] eqn:E; vm_compute in E; [|discriminate E|discriminate E].
    injection E as <-.
    match goal with |- context [mk_bin ?d ?o ?v] => set (b := mk_bin d o v) end.
    destruct (be_encode collect Release 3 (be_new 128 true) b []) as [[[e bs] r]|x|] eqn:E2; vm_compute in E2; [|discriminate E2|discriminate E2].
    injection E2 as <- <- <-. exists b. eexists. split; [reflexivity|].
    assert (O : bb_offsets b <> [] /\ Forall (fun x => (x < 4294967296)%N) (bb_offsets b)) by (split; [discriminate|repeat constructor]).
    split; [split; [vm_compute; lia|exact O]|]. split.
    + constructor; [|constructor]. split; [constructor; [exact O|constructor; [exact I|constructor]]|]. reflexivity.
    + eexists. split; [reflexivity|reflexivity].
  - destruct (let* b := pb_append (pb_new true) 5%N in let* b := pb_append_null b in pb_append b 6%N) as [b|x|] eqn:E; vm_compute in E; [|discriminate E|discriminate E].
    injection E as <-. eexists. eexists. split; [reflexivity|]. split; [split; vm_compute; lia|]. eexists. split; [vm_compute; reflexivity|reflexivity].
  - intros fuel. apply (proj1 (C78_zero_block_size_refuted 8 false (mk_prim [5%N] None) ltac:(lia) ltac:(cbn; lia))). intros s. reflexivity.
Qed.
Print Assumptions C78_witness.
