From Verif Require Import Base BaseProofs Spec Util UtilProofs RleProofs Offsets.
Open Scope nat_scope.
Arguments N.add : simpl never.
Arguments N.mul : simpl never.
Arguments N.of_nat : simpl never.
Arguments Nat.div : simpl never.
Arguments Nat.modulo : simpl never.

(** ** Widths *)

Definition or_all (vs : list N) : N := fold_right N.lor 0%N vs.
Definition width (vs : list N) : nat := N.to_nat (N.size (or_all vs)).

Lemma size_le x b : (x < 2 ^ b <-> N.size x <= b)%N.
Proof.
  destruct (N.eq_dec x 0) as [->|Hx].
  - cbn. split; intros _; [lia|]. apply N.neq_0_lt_0, N.pow_nonzero; lia.
  - rewrite N.size_log2 by exact Hx. rewrite N.log2_lt_pow2 by lia. lia.
Qed.

Lemma lor_lt a c b : (N.lor a c < 2 ^ b <-> a < 2 ^ b /\ c < 2 ^ b)%N.
Proof.
  assert (P : (0 < 2 ^ b)%N) by (apply N.neq_0_lt_0, N.pow_nonzero; lia).
  destruct (N.eq_dec a 0) as [->|Ha]; [rewrite N.lor_0_l; tauto|].
  destruct (N.eq_dec c 0) as [->|Hc]; [rewrite N.lor_0_r; tauto|].
  assert (Hl : N.lor a c <> 0%N) by (intros E; apply N.lor_eq_0_iff in E; tauto).
  rewrite !N.log2_lt_pow2 by lia. rewrite N.log2_lor. lia.
Qed.

Lemma or_all_lt vs b : (or_all vs < 2 ^ b)%N <-> Forall (fun v => v < 2 ^ b)%N vs.
Proof.
  induction vs as [|v vs IH]; cbn [or_all fold_right].
  - split; [constructor|]. intros _. apply N.neq_0_lt_0, N.pow_nonzero; lia.
  - rewrite lor_lt. unfold or_all in IH. rewrite IH. split; [intros [? ?]; constructor; auto|].
    intros H; inversion H; auto.
Qed.

Lemma width_spec vs b : width vs <= b <-> Forall (fun v => v < 2 ^ N.of_nat b)%N vs.
Proof.
  rewrite <- or_all_lt, size_le. unfold width. lia.
Qed.

Lemma width_bound vs : Forall (fun v => v < 2 ^ 32)%N vs -> width vs <= 32.
Proof. intros H. apply width_spec. exact H. Qed.

Lemma or_all_pad vs k : or_all (vs ++ repeat 0%N k) = or_all vs.
Proof.
  induction vs as [|v vs IH].
  - cbn [app]. induction k as [|k IH]; [reflexivity|]. cbn [repeat or_all fold_right]. rewrite N.lor_0_l. exact IH.
  - cbn [app or_all fold_right]. f_equal. exact IH.
Qed.

(** ** Layout *)

Lemma bp_pack_length vs b : length (bp_pack vs b) = 16 * b.
Proof. unfold bp_pack. rewrite map_length, seq_length. reflexivity. Qed.

Definition bit_byte (b i j : nat) : nat := let t := i / 4 * b + j in 16 * (t / 32) + 4 * (i mod 4) + t mod 32 / 8.

Lemma nth_pack vs b k : k < 16 * b -> nth k (bp_pack vs b) 0%N = bp_byte vs b k.
Proof.
  intros H. unfold bp_pack. rewrite (nth_indep _ 0%N (bp_byte vs b 0)) by (rewrite map_length, seq_length; exact H).
  rewrite map_nth, seq_nth by exact H. reflexivity.
Qed.

Lemma bit_byte_lt b i j : i < 128 -> j < b -> bit_byte b i j < 16 * b.
Proof.
  intros Hi Hj. unfold bit_byte. set (t := i / 4 * b + j).
  assert (Ht : t < 32 * b).
  { unfold t. assert (i / 4 < 32) by (apply Nat.div_lt_upper_bound; lia). nia. }
  assert (t / 32 < b) by (apply Nat.div_lt_upper_bound; lia).
  assert (t mod 32 < 32) by (apply Nat.mod_upper_bound; lia).
  assert (t mod 32 / 8 < 4) by (apply Nat.div_lt_upper_bound; lia).
  assert (i mod 4 < 4) by (apply Nat.mod_upper_bound; lia). lia.
Qed.

Lemma byte_testbit vs b k j : j < 8 ->
  N.testbit (bp_byte vs b k) (N.of_nat j)
  = (let t := 32 * (k / 16) + 8 * (k mod 4) + j in
     N.testbit (nth (4 * (t / b) + k mod 16 / 4) vs 0%N) (N.of_nat (t mod b))).
Proof. intros H. unfold bp_byte. rewrite bits_value_testbit, nth_map_seq by exact H. reflexivity. Qed.

(** Bit [j] of value [i] is stored in byte [bit_byte b i j]. *)
Lemma byte_holds vs b i j : j < b ->
  N.testbit (bp_byte vs b (bit_byte b i j)) (N.of_nat ((i / 4 * b + j) mod 8)) = N.testbit (nth i vs 0%N) (N.of_nat j).
Proof.
  intros Hj. rewrite byte_testbit by (apply Nat.mod_upper_bound; lia). cbv zeta.
  unfold bit_byte. set (t := i / 4 * b + j). cbv zeta.
  assert (H1 : t mod 32 < 32) by (apply Nat.mod_upper_bound; lia).
  assert (H2 : t mod 32 / 8 < 4) by (apply Nat.div_lt_upper_bound; lia).
  assert (H3 : i mod 4 < 4) by (apply Nat.mod_upper_bound; lia).
  set (k := 16 * (t / 32) + 4 * (i mod 4) + t mod 32 / 8).
  assert (K1 : k / 16 = t / 32) by (symmetry; apply (Nat.div_unique k 16 (t / 32) (4 * (i mod 4) + t mod 32 / 8)); unfold k; lia).
  assert (K2 : k mod 16 = 4 * (i mod 4) + t mod 32 / 8)
    by (symmetry; apply (Nat.mod_unique k 16 (t / 32) (4 * (i mod 4) + t mod 32 / 8)); unfold k; lia).
  assert (K3 : k mod 4 = t mod 32 / 8)
    by (symmetry; apply (Nat.mod_unique k 4 (4 * (t / 32) + i mod 4) (t mod 32 / 8)); unfold k; lia).
  assert (K4 : k mod 16 / 4 = i mod 4)
    by (rewrite K2; symmetry; apply (Nat.div_unique (4 * (i mod 4) + t mod 32 / 8) 4 (i mod 4) (t mod 32 / 8)); lia).
  rewrite K1, K3, K4.
  assert (T : 32 * (t / 32) + 8 * (t mod 32 / 8) + t mod 8 = t).
  { assert (E1 : t mod 8 = t mod 32 mod 8).
    { symmetry; apply (Nat.mod_unique t 8 (4 * (t / 32) + t mod 32 / 8) (t mod 32 mod 8)); [apply Nat.mod_upper_bound; lia|].
      pose proof (Nat.div_mod t 32 ltac:(lia)) as D1. pose proof (Nat.div_mod (t mod 32) 8 ltac:(lia)) as D2. lia. }
    pose proof (Nat.div_mod t 32 ltac:(lia)) as D1. pose proof (Nat.div_mod (t mod 32) 8 ltac:(lia)) as D2. lia. }
  rewrite T.
  assert (T1 : t / b = i / 4) by (symmetry; apply (Nat.div_unique t b (i / 4) j); unfold t; lia).
  assert (T2 : t mod b = j) by (symmetry; apply (Nat.mod_unique t b (i / 4) j); unfold t; lia).
  rewrite T1, T2. pose proof (Nat.div_mod i 4 ltac:(lia)) as D. rewrite <- D. reflexivity.
Qed.

Lemma bits_ext_lt x y b : (x < 2 ^ N.of_nat b)%N -> (y < 2 ^ N.of_nat b)%N ->
  (forall j, j < b -> N.testbit x (N.of_nat j) = N.testbit y (N.of_nat j)) -> x = y.
Proof.
  intros Hx Hy H. apply N.bits_inj. intros k. rewrite <- (N2Nat.id k).
  destruct (Nat.lt_ge_cases (N.to_nat k) b) as [L|L]; [apply H; exact L|].
  assert (Z : forall z, (z < 2 ^ N.of_nat b)%N -> N.testbit z (N.of_nat (N.to_nat k)) = false).
  { intros z Hz. destruct (N.eq_dec z 0) as [->|Nz]; [apply N.bits_0|]. apply N.bits_above_log2.
    assert (N.log2 z < N.of_nat b)%N by (apply N.log2_lt_pow2; lia). lia. }
  rewrite !Z by assumption. reflexivity.
Qed.

(** Unpacking any bytes that agree with the packed form on the bytes of value
    [i] gives value [i]. *)
Lemma unpack_value vs bytes b i : i < 128 -> width vs <= b ->
  (forall j, j < b -> nth (bit_byte b i j) bytes 0%N = nth (bit_byte b i j) (bp_pack vs b) 0%N) ->
  bp_unpack_value bytes b i = nth i vs 0%N.
Proof.
  intros Hi HW HB. apply (bits_ext_lt _ _ b).
  - unfold bp_unpack_value. eapply N.lt_le_trans; [apply bits_value_lt|]. rewrite map_length, seq_length. lia.
  - destruct (Nat.lt_ge_cases i (length vs)) as [L|L].
    + apply width_spec in HW. rewrite Forall_forall in HW. apply HW. apply nth_In. exact L.
    + rewrite nth_overflow by exact L. apply N.neq_0_lt_0, N.pow_nonzero; lia.
  - intros j Hj. unfold bp_unpack_value. rewrite bits_value_testbit, nth_map_seq by exact Hj.
    fold (bit_byte b i j). rewrite HB by exact Hj. rewrite nth_pack by (apply bit_byte_lt; assumption).
    apply byte_holds. exact Hj.
Qed.

Lemma unpack_pack vs b : length vs = 128 -> width vs <= b -> bp_unpack (bp_pack vs b) b = vs.
Proof.
  intros HL HW. apply nth_ext with (d := 0%N) (d' := 0%N).
  - unfold bp_unpack. rewrite map_length, seq_length. symmetry; exact HL.
  - unfold bp_unpack. rewrite map_length, seq_length. intros i Hi.
    change BLOCK_LEN with 128 in *.
    rewrite (nth_indep _ 0%N (bp_unpack_value (bp_pack vs b) b 0)) by (rewrite map_length, seq_length; exact Hi).
    rewrite map_nth, seq_nth by exact Hi. cbn [Nat.add]. apply unpack_value; auto.
Qed.

(** ** Encoding *)

Definition padded (src : list N) : list N := src ++ repeat 0%N (128 - length src).

Lemma round_128 p n : (n <= u64_lim - 128)%N ->
  round_upto_power_of_2 p n (N.of_nat BLOCK_LEN) = Ret ((n + 127) / 128 * 128)%N.
Proof. intros H. exact (round_up_value p n 7 ltac:(lia) H). Qed.

Definition nceil8 (n : nat) : nat := (n + 7) / 8.
Lemma ceil8_nat n : N.to_nat (ceil8 (N.of_nat n)) = nceil8 n.
Proof.
  rewrite ceil8_spec. unfold nceil8. rewrite N2Nat.inj_div. f_equal. lia.
Qed.
Lemma nceil8_mul n : nceil8 (n * 128) = 16 * n.
Proof. unfold nceil8. symmetry. apply (Nat.div_unique (n * 128 + 7) 8 (16 * n) 7); lia. Qed.
Lemma nceil8_le a b : a <= b -> nceil8 a <= nceil8 b.
Proof. intros H. apply Nat.div_le_mono; lia. Qed.

Lemma chunks_one {A} f n (l : list A) : l <> [] -> length l <= n -> chunks (S f) n l = [l].
Proof.
  intros H HL. cbn [chunks]. destruct l as [|x l]; [congruence|].
  rewrite firstn_all2, skipn_all2 by exact HL. destruct f; reflexivity.
Qed.

Lemma off_encode_ok p src dst : 1 <= length src <= 128 ->
  let b := width src in
  off_encode p src dst
  = Ret (padded src, dst ++ [N.of_nat b] ++ firstn (nceil8 (b * length src)) (bp_pack (padded src) b)).
Proof.
  intros HL b. unfold off_encode. rewrite round_128 by (unfold u64_lim; lia).
  assert (E : ((N.of_nat (length src) + 127) / 128 * 128 = 128)%N).
  { replace ((N.of_nat (length src) + 127) / 128)%N with 1%N; [reflexivity|].
    apply (N.div_unique (N.of_nat (length src) + 127) 128 1 (N.of_nat (length src) - 1)); lia. }
  rewrite E, bind_ret. change (N.to_nat 128) with 128. rewrite resize_grow by lia. fold (padded src).
  assert (PL : length (padded src) = 128) by (unfold padded; rewrite app_length, repeat_length; lia).
  unfold bp_num_bits. rewrite PL. change (128 =? BLOCK_LEN) with true. cbv iota.
  assert (EW : N.to_nat (N.size (fold_right N.lor 0%N (padded src))) = b)
    by (fold (or_all (padded src)); unfold padded; rewrite or_all_pad; reflexivity).
  rewrite EW, bind_ret.
  rewrite !ceil8_nat. rewrite nceil8_mul.
  set (start := length (dst ++ [N.of_nat b])).
  rewrite (resize_grow (dst ++ [N.of_nat b])) by (unfold start; lia).
  replace (start + 16 * b - length (dst ++ [N.of_nat b])) with (16 * b) by (unfold start; lia).
  assert (EC : chunks 128 BLOCK_LEN (padded src) = [padded src]).
  { apply chunks_one; [intros E0; rewrite E0 in PL; discriminate PL|rewrite PL; reflexivity]. }
  rewrite EC. cbn [off_chunks]. unfold slice_from.
  assert (LE : start <=? length ((dst ++ [N.of_nat b]) ++ repeat 0%N (16 * b)) = true).
  { apply Nat.leb_le. rewrite app_length. unfold start. lia. }
  rewrite LE, bind_ret. rewrite (skipn_app_len (dst ++ [N.of_nat b])) by reflexivity.
  rewrite (firstn_app_len (dst ++ [N.of_nat b])) by reflexivity.
  assert (C : bp_compress (padded src) (repeat 0%N (16 * b)) b = Ret (bp_pack (padded src) b, 16 * b)).
  { unfold bp_compress. destruct (Nat.eqb_spec b 0) as [->|Hb]; [reflexivity|].
    rewrite PL. change (128 =? BLOCK_LEN) with true. cbv iota. rewrite repeat_length, Nat.leb_refl.
    rewrite skipn_all2 by (rewrite repeat_length; lia). rewrite app_nil_r. reflexivity. }
  rewrite C, bind_ret. cbn [fst snd]. rewrite bind_ret. do 2 f_equal.
  assert (HB : nceil8 (b * length src) <= 16 * b).
  { rewrite <- nceil8_mul. apply nceil8_le. nia. }
  rewrite resize_trunc by (rewrite app_length, bp_pack_length; unfold start; lia).
  rewrite firstn_app. rewrite (firstn_all2 (dst ++ [N.of_nat b])) by (unfold start; lia).
  rewrite <- app_assoc. do 3 f_equal. unfold start. lia.
Qed.

Lemma off_encode_panics p src dst : length src = 0 \/ 128 < length src -> (N.of_nat (length src) < 2 ^ 63)%N ->
  off_encode p src dst = Panic PAssert.
Proof.
  intros HL HB. change (2 ^ 63)%N with 9223372036854775808%N in HB. unfold off_encode.
  rewrite round_128 by (unfold u64_lim; lia). rewrite bind_ret.
  unfold bp_num_bits. rewrite resize_length.
  assert (NE : N.to_nat ((N.of_nat (length src) + 127) / 128 * 128) <> BLOCK_LEN).
  { change BLOCK_LEN with 128. destruct HL as [->|HL]; [vm_compute; discriminate|].
    assert (2 <= (N.of_nat (length src) + 127) / 128)%N by (apply N.div_le_lower_bound; lia). lia. }
  destruct (Nat.eqb_spec (N.to_nat ((N.of_nat (length src) + 127) / 128 * 128)) BLOCK_LEN); [contradiction|]. reflexivity.
Qed.

(** ** Which counts survive trimming *)

(** [bit_byte] on binary numbers. *)
Definition bit_byte_N (b i j : N) : N :=
  (let t := i / 4 * b + j in 16 * (t / 32) + 4 * (i mod 4) + t mod 32 / 8)%N.

Lemma bit_byte_N_ok b i j : bit_byte_N (N.of_nat b) (N.of_nat i) (N.of_nat j) = N.of_nat (bit_byte b i j).
Proof.
  unfold bit_byte_N, bit_byte. cbv zeta.
  assert (D : forall x c, c <> 0 -> (N.of_nat x / N.of_nat c = N.of_nat (x / c))%N).
  { intros x c Hc. rewrite <- (N2Nat.id (N.of_nat x / N.of_nat c)). f_equal. rewrite N2Nat.inj_div, !Nat2N.id. reflexivity. }
  assert (M : forall x c, c <> 0 -> (N.of_nat x mod N.of_nat c = N.of_nat (x mod c))%N).
  { intros x c Hc. rewrite <- (N2Nat.id (N.of_nat x mod N.of_nat c)). f_equal. rewrite N2Nat.inj_mod, !Nat2N.id. reflexivity. }
  change 4%N with (N.of_nat 4). change 32%N with (N.of_nat 32). change 8%N with (N.of_nat 8).
  rewrite (D i 4) by lia. rewrite (M i 4) by lia.
  replace (N.of_nat (i / 4) * N.of_nat b + N.of_nat j)%N with (N.of_nat (i / 4 * b + j)) by lia.
  rewrite D, M by lia. rewrite D by lia. lia.
Qed.

(** Every bit of the first [n] values of width [b] lies in the bytes kept. *)
Definition recoverable (n b : nat) : bool :=
  forallb (fun i => forallb (fun j =>
    (bit_byte_N (N.of_nat b) (N.of_nat i) (N.of_nat j) <? ceil8 (N.of_nat b * N.of_nat n))%N) (seq 0 b)) (seq 0 n).

Lemma recoverable_step b n i j :
  (bit_byte_N (N.of_nat b) (N.of_nat i) (N.of_nat j) <? ceil8 (N.of_nat b * N.of_nat n))%N
  = (bit_byte b i j <? nceil8 (b * n)).
Proof.
  rewrite bit_byte_N_ok. rewrite <- Nat2N.inj_mul. rewrite <- ceil8_nat.
  destruct (N.ltb_spec (N.of_nat (bit_byte b i j)) (ceil8 (N.of_nat (b * n)))),
    (Nat.ltb_spec (bit_byte b i j) (N.to_nat (ceil8 (N.of_nat (b * n))))); try reflexivity; lia.
Qed.

Lemma recoverable_spec n b :
  recoverable n b = true <-> (forall i j, i < n -> j < b -> bit_byte b i j < nceil8 (b * n)).
Proof.
  unfold recoverable. rewrite forallb_forall. split.
  - intros H i j Hi Hj. specialize (H i). rewrite in_seq in H. specialize (H ltac:(lia)).
    rewrite forallb_forall in H. specialize (H j). rewrite in_seq in H. specialize (H ltac:(lia)).
    rewrite recoverable_step in H. apply Nat.ltb_lt. exact H.
  - intros H i Hi. rewrite in_seq in Hi. apply forallb_forall. intros j Hj. rewrite in_seq in Hj.
    rewrite recoverable_step. apply Nat.ltb_lt. apply H; lia.
Qed.

Lemma unrecoverable n b : recoverable n b = false ->
  exists i j, i < n /\ j < b /\ nceil8 (b * n) <= bit_byte b i j.
Proof.
  unfold recoverable. intros H.
  assert (X : forall {A} (f : A -> bool) l, forallb f l = false -> exists x, In x l /\ f x = false).
  { intros A f l. induction l as [|x l IH]; [discriminate|]. cbn [forallb]. destruct (f x) eqn:E.
    - intros HF. destruct (IH HF) as (y & Hy & Ey). exists y. split; [right; exact Hy|exact Ey].
    - intros _. exists x. split; [left; reflexivity|exact E]. }
  destruct (X _ _ _ H) as (i & Hi & E). destruct (X _ _ _ E) as (j & Hj & E2).
  rewrite in_seq in Hi, Hj. rewrite recoverable_step in E2. apply Nat.ltb_ge in E2. exists i, j. repeat split; [lia|lia|exact E2].
Qed.

(** The values read back from the trimmed bytes. *)
Definition off_read (n b : nat) (bytes : list N) : list N := firstn n (bp_unpack bytes b).

Lemma read_trimmed src : 1 <= length src <= 128 -> recoverable (length src) (width src) = true ->
  off_read (length src) (width src) (firstn (nceil8 (width src * length src)) (bp_pack (padded src) (width src))) = src.
Proof.
  intros HL HR. rewrite recoverable_spec in HR. set (b := width src) in *. set (n := length src) in *.
  apply nth_ext with (d := 0%N) (d' := 0%N).
  - unfold off_read, bp_unpack. rewrite firstn_length, map_length, seq_length. change BLOCK_LEN with 128. lia.
  - unfold off_read. rewrite firstn_length. unfold bp_unpack. rewrite map_length, seq_length. change BLOCK_LEN with 128.
    intros i Hi. rewrite Nat.min_l in Hi by lia.
    assert (NF : forall l : list N, nth i (firstn n l) 0%N = nth i l 0%N).
    { intros l. rewrite <- (firstn_skipn n l) at 2.
      destruct (Nat.lt_ge_cases i (length (firstn n l))) as [Q|Q]; [rewrite app_nth1 by exact Q; reflexivity|].
      rewrite firstn_length in Q. rewrite nth_overflow by (rewrite firstn_length; lia).
      rewrite app_nth2 by (rewrite firstn_length; lia). rewrite nth_overflow; [reflexivity|].
      rewrite skipn_length, firstn_length. lia. }
    rewrite NF.
    set (bytes := firstn _ _).
    rewrite (nth_indep _ 0%N (bp_unpack_value bytes b 0)) by (rewrite map_length, seq_length; lia).
    rewrite map_nth, seq_nth by lia. cbn [Nat.add].
    rewrite (unpack_value (padded src)).
    + unfold padded. rewrite app_nth1 by exact Hi. reflexivity.
    + lia.
    + unfold width, padded. rewrite or_all_pad. fold (width src). fold b. lia.
    + intros j Hj. specialize (HR i j Hi Hj). unfold bytes.
      assert (K : bit_byte b i j < length (bp_pack (padded src) b)) by (rewrite bp_pack_length; apply bit_byte_lt; lia).
      rewrite <- (firstn_skipn (nceil8 (b * n)) (bp_pack (padded src) b)) at 2.
      rewrite app_nth1; [reflexivity|]. rewrite firstn_length. lia.
Qed.

(** Which bit a given bit of the packed form is. *)
Lemma bit_byte_inv b k jj : 0 < b -> k < 16 * b -> jj < 8 ->
  let t := 32 * (k / 16) + 8 * (k mod 4) + jj in
  bit_byte b (4 * (t / b) + k mod 16 / 4) (t mod b) = k.
Proof.
  intros Hb Hk Hj t. unfold bit_byte.
  assert (H1 : k mod 16 < 16) by (apply Nat.mod_upper_bound; lia).
  assert (H2 : k mod 16 / 4 < 4) by (apply Nat.div_lt_upper_bound; lia).
  assert (H3 : k mod 4 < 4) by (apply Nat.mod_upper_bound; lia).
  assert (E1 : (4 * (t / b) + k mod 16 / 4) / 4 = t / b)
    by (symmetry; apply (Nat.div_unique _ 4 (t / b) (k mod 16 / 4)); lia).
  assert (E2 : (4 * (t / b) + k mod 16 / 4) mod 4 = k mod 16 / 4)
    by (symmetry; apply (Nat.mod_unique _ 4 (t / b) (k mod 16 / 4)); lia).
  rewrite E1, E2. pose proof (Nat.div_mod t b ltac:(lia)) as D. rewrite Nat.mul_comm in D. rewrite <- D.
  assert (E3 : t / 32 = k / 16) by (symmetry; apply (Nat.div_unique t 32 (k / 16) (8 * (k mod 4) + jj)); unfold t; lia).
  assert (E4 : t mod 32 = 8 * (k mod 4) + jj)
    by (symmetry; apply (Nat.mod_unique t 32 (k / 16) (8 * (k mod 4) + jj)); unfold t; lia).
  assert (E5 : t mod 32 / 8 = k mod 4) by (rewrite E4; symmetry; apply (Nat.div_unique _ 8 (k mod 4) jj); lia).
  rewrite E3, E5. pose proof (Nat.div_mod k 16 ltac:(lia)) as D1. pose proof (Nat.div_mod (k mod 16) 4 ltac:(lia)) as D2.
  assert (E6 : k mod 16 mod 4 = k mod 4).
  { apply (Nat.mod_unique k 4 (4 * (k / 16) + k mod 16 / 4)); [apply Nat.mod_upper_bound; lia|lia]. }
  lia.
Qed.

Lemma pack_agree vs ws b m :
  0 < b -> (forall i j, j < b -> bit_byte b i j < m -> N.testbit (nth i vs 0%N) (N.of_nat j) = N.testbit (nth i ws 0%N) (N.of_nat j)) ->
  firstn m (bp_pack vs b) = firstn m (bp_pack ws b).
Proof.
  intros Hb H. apply nth_ext with (d := 0%N) (d' := 0%N).
  - rewrite !firstn_length, !bp_pack_length. reflexivity.
  - rewrite firstn_length, bp_pack_length. intros k Hk.
    assert (NF : forall l : list N, length l = 16 * b -> nth k (firstn m l) 0%N = nth k l 0%N).
    { intros l HL. rewrite <- (firstn_skipn m l) at 2. rewrite app_nth1; [reflexivity|]. rewrite firstn_length. lia. }
    rewrite !NF by apply bp_pack_length. rewrite !nth_pack by lia. unfold bp_byte. f_equal.
    apply map_ext_in. intros jj Hj. rewrite in_seq in Hj. cbv zeta. apply H.
    + apply Nat.mod_upper_bound. lia.
    + rewrite bit_byte_inv by lia. lia.
Qed.
