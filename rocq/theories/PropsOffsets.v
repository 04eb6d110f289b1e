(** Properties C23-C26: encoding of item lengths (offsets.rs). *)
From Verif Require Import Base BaseProofs Spec Util UtilProofs RleProofs Offsets OffsetsProofs.
Open Scope nat_scope.

(** [b] is the least width that holds every value. *)
Definition least_width (b : nat) (values : list N) : Prop :=
  Forall (fun v => v < 2 ^ N.of_nat b)%N values
  /\ forall b', Forall (fun v => v < 2 ^ N.of_nat b')%N values -> b <= b'.

Lemma width_least vs : least_width (width vs) vs.
Proof. split; [apply width_spec; lia|]. intros b' H. apply width_spec. exact H. Qed.

Lemma least_width_unique b vs : least_width b vs -> b = width vs.
Proof.
  intros [H1 H2]. pose proof (width_least vs) as [W1 W2]. specialize (H2 _ W1). specialize (W2 _ H1). lia.
Qed.

(** C23.  128 lengths: one width byte and 16 bytes per bit of width, after the
    untouched earlier output; unpacking gives the lengths back. *)
Theorem C23_full_block :
  forall p src dst, length src = 128 ->
  exists b bytes, least_width b src
    /\ off_encode p src dst = Ret (src, dst ++ [N.of_nat b] ++ bytes)
    /\ length bytes = 16 * b /\ bp_unpack bytes b = src.
Proof.
  intros p src dst HL. exists (width src), (bp_pack src (width src)).
  split; [apply width_least|].
  assert (EP : padded src = src) by (unfold padded; rewrite HL; cbn [Nat.sub repeat]; apply app_nil_r).
  rewrite off_encode_ok by lia. rewrite EP, HL, nceil8_mul.
  rewrite firstn_all2 by (rewrite bp_pack_length; lia).
  split; [reflexivity|]. split; [apply bp_pack_length|]. apply unpack_pack; [exact HL|lia].
Qed.
Print Assumptions C23_full_block.

Example C23_witness :
  let src := map N.of_nat (seq 100 128) in
  length src = 128 /\ least_width 8 src
  /\ match off_encode Debug src [7]%N with
     | Ret (_, out) => firstn 2 out = [7; 8]%N /\ length out = 130 /\ bp_unpack (skipn 2 out) 8 = src
     | _ => False end.
Proof.
  split; [reflexivity|]. split.
  - split; [apply Forall_forall; intros x Hx; apply in_map_iff in Hx; destruct Hx as (y & <- & Hy); rewrite in_seq in Hy; change (2 ^ N.of_nat 8)%N with 256%N; lia|].
    intros b' H. rewrite Forall_forall in H. specialize (H 227%N ltac:(vm_compute; tauto)).
    destruct (Nat.le_gt_cases 8 b') as [L|L]; [exact L|].
    assert (2 ^ N.of_nat b' <= 2 ^ 7)%N by (apply N.pow_le_mono_r; lia). change (2 ^ 7)%N with 128%N in *. lia.
  - vm_compute. repeat split.
Qed.

(** C24.  Partial blocks.  The property is false: two different lists of three
    lengths give the same bytes. *)
Theorem C24_partial_block_refuted :
  ~ (forall p l1 l2 dst s1 s2 out, 1 <= length l1 <= 128 -> length l2 = length l1 ->
       Forall (fun v => v < 2 ^ 32)%N l1 -> Forall (fun v => v < 2 ^ 32)%N l2 ->
       off_encode p l1 dst = Ret (s1, out) -> off_encode p l2 dst = Ret (s2, out) -> l1 = l2).
Proof.
  intros H. specialize (H Debug [5; 1; 2]%N [5; 2; 1]%N []).
  eassert (E := H _ _ _ _ _ _ _ eq_refl eq_refl). discriminate E.
  Unshelve. all: cbn; try lia; repeat constructor.
Qed.
Print Assumptions C24_partial_block_refuted.

(** Exactly when it holds.  [recoverable n b] checks, from the layout, that
    every bit of [n] values of width [b] lies within the bytes kept.  If so,
    unpacking what was kept gives the lengths; if not, some two different lists
    of that count and width are encoded alike. *)
Theorem C24_partial_block_exact :
  forall n b, 1 <= n <= 128 -> b <= 32 ->
  (recoverable n b = true ->
     forall p src dst, length src = n -> least_width b src ->
       exists s bytes, off_encode p src dst = Ret (s, dst ++ [N.of_nat b] ++ bytes) /\ off_read n b bytes = src)
  /\ (recoverable n b = false ->
       exists l1 l2, length l1 = n /\ length l2 = n /\ l1 <> l2 /\ least_width b l1 /\ least_width b l2
         /\ forall p dst, exists s1 s2 out, off_encode p l1 dst = Ret (s1, out) /\ off_encode p l2 dst = Ret (s2, out)).
Proof.
  intros n b Hn Hb. split.
  - intros HR p src dst HL HW. apply least_width_unique in HW. subst b n.
    exists (padded src). eexists. split; [apply off_encode_ok; exact Hn|]. apply read_trimmed; assumption.
  - intros HR. destruct (unrecoverable n b HR) as (i & j & Hi & Hj & HK).
    assert (N2 : 2 <= n).
    { destruct (Nat.eq_dec n 1) as [->|]; [|lia]. exfalso. revert HR.
      assert (A : forallb (recoverable 1) (seq 0 33) = true) by (vm_compute; reflexivity).
      rewrite forallb_forall in A. rewrite A by (rewrite in_seq; lia). discriminate. }
    set (i' := if i =? 0 then 1 else 0).
    assert (Hi' : i' < n /\ i' <> i) by (unfold i'; destruct (Nat.eqb_spec i 0); lia).
    set (top := (2 ^ N.of_nat (b - 1))%N).
    set (l1 := map (fun x => if x =? i' then top else 0%N) (seq 0 n)).
    set (l2 := map (fun x => if x =? i' then top else if x =? i then (2 ^ N.of_nat j)%N else 0%N) (seq 0 n)).
    assert (L1 : length l1 = n) by (unfold l1; rewrite map_length, seq_length; reflexivity).
    assert (L2 : length l2 = n) by (unfold l2; rewrite map_length, seq_length; reflexivity).
    assert (V1 : forall x, x < n -> nth x l1 0%N = if x =? i' then top else 0%N).
    { intros x Hx. unfold l1. rewrite (nth_indep _ 0%N ((fun x => if x =? i' then top else 0%N) 0)) by (rewrite map_length, seq_length; lia).
      rewrite (map_nth (fun x => if x =? i' then top else 0%N)), seq_nth by lia. reflexivity. }
    assert (V2 : forall x, x < n -> nth x l2 0%N = if x =? i' then top else if x =? i then (2 ^ N.of_nat j)%N else 0%N).
    { intros x Hx. unfold l2. set (f := fun x => if x =? i' then top else if x =? i then (2 ^ N.of_nat j)%N else 0%N).
      rewrite (nth_indep _ 0%N (f 0)) by (rewrite map_length, seq_length; lia).
      rewrite map_nth, seq_nth by lia. reflexivity. }
    assert (NE : l1 <> l2).
    { intros E. pose proof (V1 i Hi) as A. rewrite E, (V2 i Hi) in A. destruct (Nat.eqb_spec i i') as [Q|_]; [lia|].
      rewrite Nat.eqb_refl in A. pose proof (N.pow_nonzero 2 (N.of_nat j)). lia. }
    assert (TB : (top < 2 ^ N.of_nat b)%N) by (apply N.pow_lt_mono_r; lia).
    assert (JB : (2 ^ N.of_nat j < 2 ^ N.of_nat b)%N) by (apply N.pow_lt_mono_r; lia).
    assert (W : forall l, length l = n -> nth i' l 0%N = top -> Forall (fun v => v < 2 ^ N.of_nat b)%N l -> least_width b l).
    { intros l HL HT HF. split; [exact HF|]. intros b' HF'. rewrite Forall_forall in HF'.
      assert (HI : In (nth i' l 0%N) l) by (apply nth_In; rewrite HL; apply Hi').
      specialize (HF' _ HI). rewrite HT in HF'.
      unfold top in HF'. apply N.pow_lt_mono_r_iff in HF'; lia. }
    assert (W1 : least_width b l1).
    { apply W; [exact L1|rewrite V1 by lia; rewrite Nat.eqb_refl; reflexivity|].
      apply Forall_forall. intros x Hx. apply (In_nth _ _ 0%N) in Hx. destruct Hx as (k & Hk & <-). rewrite V1 by lia.
      destruct (k =? i'); [exact TB|]. lia. }
    assert (W2 : least_width b l2).
    { apply W; [exact L2|rewrite V2 by lia; rewrite Nat.eqb_refl; reflexivity|].
      apply Forall_forall. intros x Hx. apply (In_nth _ _ 0%N) in Hx. destruct Hx as (k & Hk & <-). rewrite V2 by lia.
      destruct (k =? i'); [exact TB|]. destruct (k =? i); [exact JB|]. lia. }
    exists l1, l2. split; [exact L1|]. split; [exact L2|]. split; [exact NE|]. split; [exact W1|]. split; [exact W2|].
    intros p dst. exists (padded l1), (padded l2). eexists. split; [apply off_encode_ok; lia|].
    rewrite off_encode_ok by lia. rewrite <- (least_width_unique b l1 W1), <- (least_width_unique b l2 W2). rewrite L1, L2.
    do 4 f_equal. apply pack_agree; [lia|]. intros x y Hy HB.
    destruct (Nat.lt_ge_cases x n) as [Hx|Hx].
    + unfold padded. rewrite !app_nth1 by lia. rewrite V1, V2 by lia. destruct (Nat.eqb_spec x i') as [|_]; [reflexivity|].
      destruct (Nat.eqb_spec x i) as [->|_]; [|reflexivity]. rewrite N.bits_0. rewrite N.pow2_bits_false; [reflexivity|].
      intros E. apply Nat2N.inj in E. subst y. lia.
    + assert (Z : forall l, length l = n -> nth x (padded l) 0%N = 0%N).
      { intros l HL. unfold padded. rewrite app_nth2 by lia. apply nth_repeat. }
      rewrite !Z by assumption. reflexivity.
Qed.
Print Assumptions C24_partial_block_exact.

(** So one length, 127 or 128 lengths, and lengths that need no bits or all 32
    can always be read back; two to six lengths of width 1 to 28 never can in
    general. *)
Theorem C24_counts_partial :
  (forall b, b <= 32 -> recoverable 1 b = true /\ recoverable 127 b = true /\ recoverable 128 b = true)
  /\ (forall n, 1 <= n <= 128 -> recoverable n 0 = true /\ recoverable n 32 = true)
  /\ (forall n b, 2 <= n <= 6 -> 1 <= b <= 28 -> recoverable n b = false).
Proof.
  split; [|split].
  - intros b Hb.
    assert (A : forallb (fun b => recoverable 1 b && recoverable 127 b) (seq 0 33) = true) by (vm_compute; reflexivity).
    rewrite forallb_forall in A. specialize (A b). rewrite in_seq in A. specialize (A ltac:(lia)).
    apply andb_true_iff in A. destruct A as [A1 A2]. split; [exact A1|]. split; [exact A2|].
    apply recoverable_spec. intros i j Hi Hj. rewrite nceil8_mul. apply bit_byte_lt; assumption.
  - intros n Hn. split; apply recoverable_spec; intros i j Hi Hj; [lia|].
    unfold bit_byte. cbv zeta.
    assert (E1 : (i / 4 * 32 + j) / 32 = i / 4) by (symmetry; apply (Nat.div_unique _ 32 (i / 4) j); lia).
    assert (E2 : (i / 4 * 32 + j) mod 32 = j) by (symmetry; apply (Nat.mod_unique _ 32 (i / 4) j); lia).
    rewrite E1, E2. assert (E3 : j / 8 < 4) by (apply Nat.div_lt_upper_bound; lia).
    pose proof (Nat.div_mod i 4 ltac:(lia)) as D.
    assert (E4 : nceil8 (32 * n) = 4 * n) by (unfold nceil8; symmetry; apply (Nat.div_unique _ 8 (4 * n) 7); lia).
    rewrite E4. lia.
  - intros n b Hn Hb.
    assert (A : forallb (fun n => forallb (fun b => negb (recoverable n b)) (seq 1 28)) (seq 2 5) = true) by (vm_compute; reflexivity).
    rewrite forallb_forall in A. specialize (A n). rewrite in_seq in A. specialize (A ltac:(lia)).
    rewrite forallb_forall in A. specialize (A b). rewrite in_seq in A. specialize (A ltac:(lia)).
    destruct (recoverable n b); [discriminate A|reflexivity].
Qed.
Print Assumptions C24_counts_partial.

Example C24_witness :
  off_encode Debug [5; 1; 2]%N [] = Ret (padded [5; 1; 2]%N, [3; 5; 0]%N)
  /\ off_encode Debug [5; 2; 1]%N [] = Ret (padded [5; 2; 1]%N, [3; 5; 0]%N)
  /\ recoverable 16 8 = true /\ recoverable 64 12 = true.
Proof. vm_compute. repeat split. Qed.

(** C25.  Any number of lengths.  The property is false: no length at all, or
    more than 128, panics (the packer accepts exactly one block). *)
Theorem C25_any_count_refuted :
  ~ (forall p src dst, Forall (fun v => v < 2 ^ 32)%N src -> (N.of_nat (length src) < 2 ^ 32)%N ->
       is_ret (off_encode p src dst)).
Proof.
  intros H. destruct (H Debug (repeat 1%N 129) []) as [r E].
  - apply Forall_forall. intros x Hx. apply repeat_spec in Hx. subst x. reflexivity.
  - reflexivity.
  - rewrite off_encode_panics in E; [discriminate E| |].
    + right. rewrite repeat_length. lia.
    + reflexivity.
Qed.
Print Assumptions C25_any_count_refuted.

(** It succeeds exactly for 1 to 128 lengths. *)
Theorem C25_any_count_exact :
  forall p src dst, (N.of_nat (length src) < 2 ^ 63)%N ->
  (1 <= length src <= 128 -> is_ret (off_encode p src dst))
  /\ (length src = 0 \/ 128 < length src -> off_encode p src dst = Panic PAssert).
Proof.
  intros p src dst HB. split.
  - intros HL. eexists. apply off_encode_ok. exact HL.
  - intros HL. apply off_encode_panics; assumption.
Qed.
Print Assumptions C25_any_count_exact.

(** What the loop over the chunks would do for more than one block: [num_bits]
    stops [encode] before that, but the loop itself is right.  Each full chunk is
    packed after the one before it, and nothing else changes. *)
Theorem C25_loop_partial :
  forall cs dst start b, Forall (fun c => length c = 128) cs -> start + 16 * b * length cs <= length dst ->
  off_chunks cs dst start b
  = Ret (firstn start dst ++ concat (map (fun c => bp_pack c b) cs) ++ skipn (start + 16 * b * length cs) dst).
Proof.
  induction cs as [|c cs IH]; intros dst start b HF HL; cbn [off_chunks map concat length].
  - rewrite Nat.mul_0_r, Nat.add_0_r. cbn [app]. rewrite firstn_skipn. reflexivity.
  - apply Forall_cons_iff in HF. destruct HF as [HC HF]. cbn [length] in HL.
    assert (HL2 : start + 16 * b + 16 * b * length cs <= length dst) by lia.
    unfold slice_from. replace (start <=? length dst) with true by (symmetry; apply Nat.leb_le; lia). cbn [bind].
    unfold bp_compress. destruct (Nat.eqb_spec b 0) as [->|NB]; cbn [bind fst snd].
    + rewrite firstn_skipn, Nat.add_0_r, IH by (auto; lia). unfold bp_pack. rewrite !Nat.mul_0_r, !Nat.mul_0_l. reflexivity.
    + unfold BLOCK_LEN. rewrite HC, Nat.eqb_refl. replace (16 * b <=? length (skipn start dst)) with true by (symmetry; apply Nat.leb_le; rewrite skipn_length; lia).
      cbn [bind fst snd]. pose proof (bp_pack_length c b) as PL.
      assert (FL : length (firstn start dst) = start) by (rewrite firstn_length; lia).
      rewrite IH; [|exact HF|rewrite !app_length, PL, FL, !skipn_length; lia].
      replace (start + 16 * b * Datatypes.S (length cs)) with (start + 16 * b + 16 * b * length cs) by lia.
      rewrite (app_assoc (firstn start dst)). 
      replace (start + 16 * b) with (length (firstn start dst ++ bp_pack c b)) at 1 by (rewrite app_length; lia).
      rewrite firstn_app, Nat.sub_diag, firstn_all, firstn_O, app_nil_r.
      replace (start + 16 * b + 16 * b * length cs) with (length (firstn start dst ++ bp_pack c b) + 16 * b * length cs) at 1 by (rewrite app_length; lia).
      rewrite skipn_app, skipn_all2 by lia. cbn [app].
      replace (length (firstn start dst ++ bp_pack c b) + 16 * b * length cs - length (firstn start dst ++ bp_pack c b)) with (16 * b * length cs) by lia.
      rewrite !skipn_skipn_add, <- !app_assoc, Nat.add_assoc. reflexivity.
Qed.
Print Assumptions C25_loop_partial.

(** Two chunks of width 1. *)
Example C25_loop_witness :
  match off_chunks [repeat 1%N 128; repeat 0%N 128] (repeat 5%N 35) 2 1 with
  | Ret out => out = [5; 5]%N ++ repeat 255%N 16 ++ repeat 0%N 16 ++ [5]%N
  | _ => False end.
Proof. vm_compute. reflexivity. Qed.

Example C25_witness : off_encode Release [] [1]%N = Panic PAssert /\ is_ret (off_encode Release [3]%N [1]%N).
Proof. vm_compute. split; [reflexivity|eexists; reflexivity]. Qed.

(** C26.  Size and width of the output. *)
Theorem C26_offsets_size :
  forall p src dst s out, (N.of_nat (length src) < 2 ^ 63)%N -> off_encode p src dst = Ret (s, out) ->
  exists b bytes, out = dst ++ [N.of_nat b] ++ bytes /\ least_width b src
    /\ b * length src <= 8 * length bytes /\ 8 * length bytes < b * length src + 8
    /\ bytes_ok bytes /\ s = src ++ repeat 0%N (128 - length src).
Proof.
  intros p src dst s out HB HE.
  destruct (Nat.eq_dec (length src) 0) as [H0|H0]; [rewrite off_encode_panics in HE by auto; discriminate|].
  destruct (Nat.le_gt_cases (length src) 128) as [H1|H1]; [|rewrite off_encode_panics in HE by auto; discriminate].
  rewrite off_encode_ok in HE by lia. injection HE as <- <-.
  exists (width src), (firstn (nceil8 (width src * length src)) (bp_pack (padded src) (width src))).
  split; [reflexivity|]. split; [apply width_least|].
  rewrite firstn_length, bp_pack_length.
  assert (HM : nceil8 (width src * length src) <= 16 * width src) by (rewrite <- nceil8_mul; apply nceil8_le; nia).
  rewrite Nat.min_l by exact HM. unfold nceil8 in *.
  pose proof (Nat.div_mod (width src * length src + 7) 8 ltac:(lia)) as D.
  pose proof (Nat.mod_upper_bound (width src * length src + 7) 8 ltac:(lia)) as U.
  split; [lia|]. split; [lia|]. split; [|reflexivity].
  apply Forall_forall. intros x Hx.
  assert (Hx' := in_or_app _ (skipn (nceil8 (width src * length src)) (bp_pack (padded src) (width src))) x (or_introl Hx)).
  unfold nceil8 in Hx'. rewrite firstn_skipn in Hx'. clear Hx. rename Hx' into Hx. unfold bp_pack in Hx. apply in_map_iff in Hx.
  destruct Hx as (k & <- & _). unfold byte_ok, bp_byte. eapply N.lt_le_trans; [apply bits_value_lt|].
  rewrite map_length, seq_length. reflexivity.
Qed.
Print Assumptions C26_offsets_size.

Example C26_witness :
  match off_encode Debug [300; 2; 17; 0; 5]%N [9]%N with
  | Ret (_, out) => firstn 2 out = [9; 9]%N /\ length out = 2 + 6
  | _ => False end.
Proof. vm_compute. repeat split. Qed.
