(** C89: copying a column buffer in pieces.  C90: the memory of a bitmap. *)
From Verif Require Import Base BaseProofs Buffers.
Open Scope nat_scope.

(** * C89 *)

(** ** Bitmaps *)

(** The loop of [append_from], without fuel. *)
Inductive copies (src : bitmap) : bitmap -> nat -> nat -> bitmap -> nat -> Prop :=
  | cp_done d pos : copies src d pos 0 d pos
  | cp_step dst pos n bit d1 d q : bm_is_set src pos = Ret bit -> bm_append dst bit = Ret d1 ->
      copies src d1 (pos + 1) (S n - b2n bit) d q -> copies src dst pos (S n) d q.

Lemma loop_copies src : forall fuel dst i pos n d q, bm_append_from_loop fuel dst src i pos n = Ret (d, q) -> copies src dst pos (n - i) d q.
Proof.
  induction fuel as [|fuel IH]; intros dst i pos n d q H; cbn [bm_append_from_loop] in H; [discriminate|].
  destruct (Nat.ltb_spec i n) as [L|L].
  - destruct (bm_is_set src pos) as [bit|?|] eqn:B; cbn [bind] in H; try discriminate. destruct (bm_append dst bit) as [d1|?|] eqn:E; cbn [bind] in H; try discriminate.
    replace (n - i) with (S (n - i - 1)) by lia. eapply cp_step; [exact B|exact E|].
    replace (S (n - i - 1) - b2n bit) with (n - (i + b2n bit)) by lia. apply IH with (1 := H).
  - injection H as <- <-. replace (n - i) with 0 by lia. constructor.
Qed.

Lemma copies_loop src dst pos n d q : copies src dst pos n d q -> forall fuel i, (n = 0 \/ bm_len src - pos < fuel) -> 0 < fuel ->
  bm_append_from_loop fuel dst src i pos (i + n) = Ret (d, q).
Proof.
  induction 1 as [d pos|dst pos n bit d1 d q B E C IH]; intros fuel i F F0; (destruct fuel as [|fuel]; [lia|]); cbn [bm_append_from_loop].
  - replace (i <? i + 0) with false by (symmetry; apply Nat.ltb_ge; lia). reflexivity.
  - replace (i <? i + S n) with true by (symmetry; apply Nat.ltb_lt; lia). rewrite B. cbn [bind]. rewrite E. cbn [bind].
    unfold bm_is_set in B. destruct (pos <? bm_len src) eqn:P; [|discriminate]. apply Nat.ltb_lt in P.
    replace (i + S n) with ((i + b2n bit) + (S n - b2n bit)) by (destruct bit; cbn [b2n]; lia). apply IH; [right; lia|lia].
Qed.

Lemma append_from_copies dst src pos n d q : bm_append_from dst src pos n = Ret (d, q) <-> copies src dst pos n d q.
Proof.
  unfold bm_append_from. split; intros H.
  - apply loop_copies in H. rewrite Nat.sub_0_r in H. exact H.
  - apply (copies_loop _ _ _ _ _ _ H _ 0); lia.
Qed.

Lemma copies_split src dst pos a b d q : copies src dst pos (a + b) d q <-> exists d1 q1, copies src dst pos a d1 q1 /\ copies src d1 q1 b d q.
Proof.
  split.
  - intros H. remember (a + b) as n eqn:E. revert a E. induction H as [d pos|dst pos n bit d1 d q B P C IH]; intros a E.
    + assert (a = 0) as -> by lia. assert (b = 0) as -> by lia. exists d, pos. split; constructor.
    + destruct a as [|a].
      * exists dst, pos. split; [constructor|]. cbn [Nat.add] in E. rewrite <- E. eapply cp_step; eassumption.
      * destruct (IH (S a - b2n bit)) as (d2 & q2 & X & Y); [destruct bit; cbn [b2n]; lia|]. exists d2, q2. split; [eapply cp_step; eassumption|exact Y].
  - intros (d1 & q1 & H & K). induction H as [d1 pos|dst pos n bit d2 d1 q1 B P C IH]; [exact K|].
    cbn [Nat.add]. eapply cp_step; [exact B|exact P|]. replace (S (n + b) - b2n bit) with (S n - b2n bit + b) by (destruct bit; cbn [b2n]; lia). apply IH, K.
Qed.

(** Copying bits up to the [a]-th set one and then up to the [b]-th is copying
    them up to the [a + b]-th, whatever the bitmaps hold. *)
Theorem C89_bitmap : forall dst src pos a b d q,
  bm_append_from dst src pos (a + b) = Ret (d, q)
  <-> exists d1 q1, bm_append_from dst src pos a = Ret (d1, q1) /\ bm_append_from d1 src q1 b = Ret (d, q).
Proof.
  intros dst src pos a b d q. rewrite append_from_copies, copies_split. split; intros (d1 & q1 & H); exists d1, q1; rewrite !append_from_copies in *; exact H.
Qed.
Print Assumptions C89_bitmap.

(** ** The validity of a buffer *)

Lemma validity_split dst src pos a b v q : validity_append_from dst src pos (a + b) = Ret (v, q) <->
  exists v1 q1 q', validity_append_from dst src pos a = Ret (v1, q1) /\ validity_append_from v1 src q1 b = Ret (v, q')
    /\ q = match src with Some _ => q' | None => a + b end.
Proof.
  unfold validity_append_from. destruct src as [src|], dst as [dst|]; try (split; [discriminate|intros (? & ? & ? & X & _); discriminate X]).
  - split.
    + intros H. destruct (bm_append_from dst src pos (a + b)) as [[d e]|?|] eqn:E; cbn [bind fst snd] in H; try discriminate. injection H as <- <-.
      apply C89_bitmap in E. destruct E as (d1 & q1 & E1 & E2). exists (Some d1), q1, e. rewrite E1. cbn [bind fst snd]. rewrite E2. auto.
    + intros (v1 & q1 & q' & H1 & H2 & ->). destruct (bm_append_from dst src pos a) as [[d1 e1]|?|] eqn:E1; cbn [bind fst snd] in H1; try discriminate. injection H1 as <- <-.
      destruct (bm_append_from d1 src e1 b) as [[d e]|?|] eqn:E2; cbn [bind fst snd] in H2; try discriminate. injection H2 as <- <-.
      rewrite (proj2 (C89_bitmap dst src pos a b d e)); [reflexivity|]. exists d1, e1. auto.
  - split.
    + intros H. injection H as <- <-. exists None, a, b. auto.
    + intros (v1 & q1 & q' & H1 & H2 & ->). injection H1 as <- <-. injection H2 as <- _. reflexivity.
Qed.

Lemma cut_two {A} (l : list A) s m e : s <= m <= e -> firstn (e - s) (skipn s l) = firstn (m - s) (skipn s l) ++ firstn (e - m) (skipn m l).
Proof.
  intros L. assert (G : forall x y (k : list A), firstn (x + y) k = firstn x k ++ firstn y (skipn x k)).
  { induction x as [|x IH]; intros y k; [reflexivity|]. destruct k as [|z k]; cbn [Nat.add firstn skipn app]; [destruct y; reflexivity|]. rewrite IH. reflexivity. }
  replace (e - s) with ((m - s) + (e - m)) by lia. rewrite G, skipn_skipn_add. replace (s + (m - s)) with m by lia. reflexivity.
Qed.

(** ** Fixed-width buffers *)

(** Copying items [s..m] and then [m..e], from where the first copy ended, has
    the result of copying [s..e], whatever the buffers hold; one succeeds if the
    other does.  Without validity a copy reports the number of items copied. *)
Theorem C89_fixed_width : forall (T : Type) (b src : prim_buf T) s m e pos, s <= m <= e ->
  forall r q, pb_append_from b src s e pos = Ret (r, q)
  <-> exists b1 q1 q', pb_append_from b src s m pos = Ret (b1, q1) /\ pb_append_from b1 src m e q1 = Ret (r, q')
        /\ q = match pb_validity src with Some _ => q' | None => e - s end.
Proof.
  intros T b src s m e pos L r q.
  split.
  - intros H. unfold pb_append_from in H. destruct (slice (pb_values src) s e) as [ch|?|] eqn:S1; cbn [bind] in H; try discriminate.
    apply slice_ret_inv in S1. destruct S1 as (_ & LE & ->). destruct (N.ltb_spec (N.of_nat (length (pb_values b ++ firstn (e - s) (skipn s (pb_values src))))) u32_max) as [U|U]; [|discriminate].
    destruct (validity_append_from (pb_validity b) (pb_validity src) pos (e - s)) as [[v z]|?|] eqn:V; cbn [bind fst snd] in H; try discriminate. injection H as <- <-.
    replace (e - s) with ((m - s) + (e - m)) in V by lia. apply validity_split in V. destruct V as (v1 & q1 & q' & V1 & V2 & Q).
    rewrite (cut_two _ s m e L) in *. rewrite !app_length in U.
    exists (mk_prim (pb_values b ++ firstn (m - s) (skipn s (pb_values src))) v1), q1, q'. unfold pb_append_from. rewrite !slice_ok by lia. cbn [bind pb_values pb_validity].
    replace (N.of_nat (length (pb_values b ++ firstn (m - s) (skipn s (pb_values src)))) <? u32_max)%N with true by (symmetry; apply N.ltb_lt; rewrite app_length; lia).
    rewrite V1. cbn [bind fst snd pb_values pb_validity]. rewrite <- app_assoc.
    replace (N.of_nat (length (pb_values b ++ firstn (m - s) (skipn s (pb_values src)) ++ firstn (e - m) (skipn m (pb_values src)))) <? u32_max)%N with true by (symmetry; apply N.ltb_lt; rewrite !app_length; lia).
    rewrite V2. split; [reflexivity|]. split; [reflexivity|]. rewrite Q. destruct (pb_validity src); [reflexivity|lia].
  - intros (b1 & q1 & q' & H1 & H2 & ->). unfold pb_append_from in *. destruct (slice (pb_values src) s m) as [c1|?|] eqn:S1; cbn [bind] in H1; try discriminate.
    apply slice_ret_inv in S1. destruct S1 as (_ & L1 & ->). destruct (N.of_nat (length (pb_values b ++ _)) <? u32_max)%N; [|discriminate].
    destruct (validity_append_from (pb_validity b) (pb_validity src) pos (m - s)) as [[v1 z1]|?|] eqn:V1; cbn [bind fst snd] in H1; try discriminate. injection H1 as <- <-.
    destruct (slice (pb_values src) m e) as [c2|?|] eqn:S2; cbn [bind pb_values pb_validity] in H2; try discriminate.
    apply slice_ret_inv in S2. destruct S2 as (_ & L2 & ->). rewrite <- app_assoc, <- (cut_two _ s m e L) in H2. destruct (N.of_nat (length (pb_values b ++ _)) <? u32_max)%N eqn:U; [|discriminate].
    destruct (validity_append_from v1 (pb_validity src) z1 (e - m)) as [[v2 z2]|?|] eqn:V2; cbn [bind fst snd] in H2; try discriminate. injection H2 as <- <-.
    rewrite slice_ok by lia. cbn [bind]. rewrite U.
    assert (V : validity_append_from (pb_validity b) (pb_validity src) pos (e - s) = Ret (v2, match pb_validity src with Some _ => z2 | None => e - s end)).
    { replace (e - s) with ((m - s) + (e - m)) by lia. apply validity_split. exists v1, z1, z2. auto. }
    rewrite V. reflexivity.
Qed.
Print Assumptions C89_fixed_width.

(** ** Variable-length buffers *)

Lemma push_split p buf : forall a i b last offs, last = List.last offs 0%N -> forall r,
  bb_push_offsets p buf i (a + b) last offs = Ret r <->
  exists o, bb_push_offsets p buf i a last offs = Ret o /\ bb_push_offsets p buf (i + a) b (List.last o 0%N) o = Ret r.
Proof.
  induction a as [|a IH]; intros i b last offs L r; cbn [Nat.add bb_push_offsets].
  - rewrite Nat.add_0_r. split; [intros H; exists offs; subst last; auto|]. intros (o & X & H). injection X as <-. subst last. exact H.
  - destruct (bb_item_len p buf i) as [len|?|]; cbn [bind]; [|split; [discriminate|intros (? & X & _); discriminate X]..].
    destruct (add32 p last len) as [l|?|]; cbn [bind]; [|split; [discriminate|intros (? & X & _); discriminate X]..].
    rewrite IH by (rewrite last_last; reflexivity). replace (S i + a) with (i + S a) by lia. reflexivity.
Qed.

(** Offsets that do not decrease, as those of every buffer filled by appends. *)
Definition ascending (offsets : list N) : Prop := forall i j x y, i <= j -> nth_error offsets i = Some x -> nth_error offsets j = Some y -> (x <= y)%N.

Lemma idx_ret {A} (l : list A) i x : idx l i = Ret x -> nth_error l i = Some x.
Proof. unfold idx. destruct (nth_error l i); congruence. Qed.

Lemma sub_ok p a b : b <= a -> (N.of_nat a < u64_lim)%N -> sub64 p (N.of_nat a) (N.of_nat b) = Ret (N.of_nat (a - b)).
Proof.
  intros H _. unfold sub64, usub. replace (N.of_nat b <=? N.of_nat a)%N with true by (symmetry; apply N.leb_le; lia). f_equal. lia.
Qed.

Theorem C89_binary : forall p b src s m e pos, s <= m <= e -> ascending (bb_offsets src) -> (N.of_nat (length (bb_offsets src)) < u64_lim)%N ->
  forall r q, bb_append_from p b src s e pos = Ret (r, q)
  <-> exists b1 q1 q', bb_append_from p b src s m pos = Ret (b1, q1) /\ bb_append_from p b1 src m e q1 = Ret (r, q')
        /\ q = match bb_validity src with Some _ => q' | None => e - s end.
Proof.
  intros p b src s m e pos L AS OL r q. set (O := bb_offsets src) in *.
  assert (IN : forall i x, idx O i = Ret x -> i < length O) by (intros i x H; apply idx_ret in H; apply nth_error_Some; congruence).
  split.
  - intros H. unfold bb_append_from in *. fold O in H |- *.
    destruct (idx O s) as [so|?|] eqn:IS; cbn [bind] in H; try discriminate. destruct (idx O e) as [eo|?|] eqn:IE; cbn [bind] in H; try discriminate.
    pose proof (IN _ _ IE) as LE. rewrite sub_ok in H by lia. cbn [bind] in H.
    destruct (bb_push_offsets p src s (e - s) _ _) as [ofs|?|] eqn:PO; cbn [bind] in H; try discriminate.
    replace (e - s) with ((m - s) + (e - m)) in PO by lia. apply push_split in PO; [|reflexivity]. destruct PO as (o1 & P1 & P2). replace (s + (m - s)) with m in P2 by lia.
    destruct (idx O m) as [mo|?|] eqn:IM; [|unfold idx in IM; destruct (nth_error O m) eqn:NM; [discriminate|apply nth_error_None in NM; lia]..].
    assert (OR : (so <= mo <= eo)%N).
    { split; eapply AS; try (apply idx_ret; eassumption); lia. }
    destruct (slice (bb_data src) (N.to_nat so) (N.to_nat eo)) as [ch|?|] eqn:S1; cbn [bind] in H; try discriminate.
    apply slice_ret_inv in S1. destruct S1 as (_ & LD & ->). rewrite Nat2N.id in H.
    assert (OR' : N.to_nat so <= N.to_nat mo <= N.to_nat eo) by lia.
    rewrite (cut_two _ _ _ _ OR') in H.
    destruct (N.ltb_spec (N.of_nat (length (bb_data b ++ firstn (N.to_nat mo - N.to_nat so) (skipn (N.to_nat so) (bb_data src)) ++ firstn (N.to_nat eo - N.to_nat mo) (skipn (N.to_nat mo) (bb_data src))))) u32_max) as [U|U]; [|discriminate].
    replace (e - s) with ((m - s) + (e - m)) in H by lia.
    destruct (validity_append_from (bb_validity b) (bb_validity src) pos (m - s + (e - m))) as [[v z]|?|] eqn:V; cbn [bind fst snd] in H; try discriminate. injection H as <- <-.
    apply validity_split in V. destruct V as (v1 & q1 & q' & V1 & V2 & Q).
    exists (mk_bin (bb_data b ++ firstn (N.to_nat mo - N.to_nat so) (skipn (N.to_nat so) (bb_data src))) o1 v1), q1, q'.
    cbn [bind]. rewrite !sub_ok by lia. cbn [bind]. rewrite P1. cbn [bind bb_offsets bb_data bb_validity]. rewrite !slice_ok by lia. cbn [bind]. rewrite !Nat2N.id.
    replace (N.of_nat (length (bb_data b ++ firstn (N.to_nat mo - N.to_nat so) (skipn (N.to_nat so) (bb_data src)))) <? u32_max)%N with true by (symmetry; apply N.ltb_lt; rewrite !app_length in *; lia).
    rewrite V1. cbn [bind fst snd]. split; [reflexivity|]. split; [|rewrite Q; destruct (bb_validity src); [reflexivity|lia]].
    rewrite P2. cbn [bind]. rewrite <- app_assoc. apply N.ltb_lt in U. rewrite U, V2. reflexivity.
  - intros (b1 & q1 & q' & H1 & H2 & ->). unfold bb_append_from in *. fold O in H1, H2 |- *.
    destruct (idx O s) as [so|?|] eqn:IS; cbn [bind] in H1; try discriminate. destruct (idx O m) as [mo|?|] eqn:IM; cbn [bind] in H1, H2; try discriminate.
    destruct (idx O e) as [eo|?|] eqn:IE; cbn [bind] in H2; try discriminate. pose proof (IN _ _ IE) as LE. rewrite sub_ok in H1, H2 by lia. cbn [bind] in H1, H2.
    destruct (bb_push_offsets p src s (m - s) _ _) as [o1|?|] eqn:P1; cbn [bind] in H1; try discriminate.
    destruct (slice (bb_data src) (N.to_nat so) (N.to_nat mo)) as [c1|?|] eqn:S1; cbn [bind] in H1; try discriminate.
    apply slice_ret_inv in S1. destruct S1 as (_ & L1 & ->). destruct (N.of_nat (length (bb_data b ++ _)) <? u32_max)%N; [|discriminate]. rewrite Nat2N.id in H1.
    destruct (validity_append_from (bb_validity b) (bb_validity src) pos (m - s)) as [[v1 z1]|?|] eqn:V1; cbn [bind fst snd] in H1; try discriminate. injection H1 as <- <-.
    cbn [bb_offsets bb_data bb_validity] in H2.
    destruct (bb_push_offsets p src m (e - m) _ _) as [o2|?|] eqn:P2; cbn [bind] in H2; try discriminate.
    destruct (slice (bb_data src) (N.to_nat mo) (N.to_nat eo)) as [c2|?|] eqn:S2; cbn [bind] in H2; try discriminate.
    apply slice_ret_inv in S2. destruct S2 as (_ & L2 & ->). rewrite Nat2N.id in H2.
    assert (OR : (so <= mo <= eo)%N) by (split; eapply AS; try (apply idx_ret; eassumption); lia).
    assert (OR' : N.to_nat so <= N.to_nat mo <= N.to_nat eo) by lia.
    rewrite <- app_assoc, <- (cut_two _ _ _ _ OR') in H2. destruct (N.of_nat (length (bb_data b ++ _)) <? u32_max)%N eqn:U; [|discriminate].
    destruct (validity_append_from v1 (bb_validity src) z1 (e - m)) as [[v2 z2]|?|] eqn:V2; cbn [bind fst snd] in H2; try discriminate. injection H2 as <- <-.
    cbn [bind]. rewrite sub_ok by lia. cbn [bind].
    assert (PO : bb_push_offsets p src s (e - s) (last (bb_offsets b) 0%N) (bb_offsets b) = Ret o2).
    { replace (e - s) with ((m - s) + (e - m)) by lia. apply push_split; [reflexivity|]. exists o1. split; [exact P1|]. replace (s + (m - s)) with m by lia. exact P2. }
    rewrite PO. cbn [bind]. rewrite slice_ok by lia. cbn [bind]. rewrite U, Nat2N.id.
    assert (V : validity_append_from (bb_validity b) (bb_validity src) pos (e - s) = Ret (v2, match bb_validity src with Some _ => z2 | None => e - s end)).
    { replace (e - s) with ((m - s) + (e - m)) by lia. apply validity_split. exists v1, z1, z2. auto. }
    rewrite V. reflexivity.
Qed.
Print Assumptions C89_binary.

(** Five rows, two of them null, in pieces of two and one, after one row. *)
Example C89_witness :
  let src := mk_bin [1; 2; 3; 4; 5; 6]%N [0; 1; 3; 6]%N (Some (mk_bitmap [26]%N 5)) in
  let dst := mk_bin [9]%N [0; 1]%N (Some (mk_bitmap [1; 0]%N 1)) in
  ascending (bb_offsets src)
  /\ bb_append_from Debug dst src 0 3 0 = Ret (mk_bin [9; 1; 2; 3; 4; 5; 6]%N [0; 1; 2; 4; 7]%N (Some (mk_bitmap [53; 0]%N 6)), 5)
  /\ (let* r := bb_append_from Debug dst src 0 2 0 in let* r' := bb_append_from Debug (fst r) src 2 3 (snd r) in Ret (snd r, r'))
     = Ret (4, (mk_bin [9; 1; 2; 3; 4; 5; 6]%N [0; 1; 2; 4; 7]%N (Some (mk_bitmap [53; 0]%N 6)), 5)).
Proof.
  split; [|vm_compute; split; reflexivity]. cbn [bb_offsets]. intros i j x y L.
  do 4 (destruct i as [|i]; [do 4 (destruct j as [|j]; [cbn [nth_error]; intros X Y; injection X as <-; injection Y as <-; lia|]); cbn [nth_error]; destruct j; discriminate|]).
  destruct i; discriminate.
Qed.

(** * C90: the memory of a bitmap *)

Inductive bm_op := BAppend (bit : bool) | BClear.

Fixpoint bm_run (b : bitmap) (ops : list bm_op) : outcome bitmap :=
  match ops with
  | [] => Ret b
  | BAppend bit :: rest => let* b := bm_append b bit in bm_run b rest
  | BClear :: rest => bm_run (bm_clear b) rest
  end.

(** The number of bits appended since the last clear, [n] before. *)
Fixpoint bits_in (n : nat) (ops : list bm_op) : nat :=
  match ops with
  | [] => n
  | BAppend _ :: rest => bits_in (S n) rest
  | BClear :: rest => bits_in 0 rest
  end.

(** What a bitmap of [n] bits that started with [first] bytes takes. *)
Definition enough (first n : nat) (b : bitmap) : Prop :=
  bm_len b = n /\ n <= 8 * length (bm_values b) /\ (length (bm_values b) = first \/ 4 * length (bm_values b) < n).

Lemma append_enough first b bit n : 0 < first -> enough first n b -> first <= length (bm_values b) ->
  exists b', bm_append b bit = Ret b' /\ enough first (S n) b' /\ first <= length (bm_values b').
Proof.
  intros F (L & C & M) G. unfold bm_append. rewrite L.
  set (vals := if n / 8 =? length (bm_values b) then resize (bm_values b) (length (bm_values b) * 2) 0%N else bm_values b).
  assert (D : n / 8 <= length (bm_values b)) by (apply Nat.div_le_upper_bound; lia).
  pose proof (Nat.mod_upper_bound n 8 ltac:(lia)) as MB. pose proof (Nat.div_mod n 8 ltac:(lia)) as DM.
  assert (V : n / 8 < length vals /\ first <= length vals /\ S n <= 8 * length vals /\ (length vals = first \/ 4 * length vals < S n)).
  { unfold vals. destruct (Nat.eqb_spec (n / 8) (length (bm_values b))) as [E|E]; [rewrite resize_length; lia|lia]. }
  destruct V as (V1 & V2 & V3 & V4).
  assert (K : exists vs, (if bit then let* mask := idx BIT_MASK (n mod 8) in let* old := idx vals (n / 8) in upd vals (n / 8) (N.lor old mask) else Ret vals) = Ret vs /\ length vs = length vals).
  { destruct bit; [|exists vals; auto].
    assert (I1 : exists x, idx BIT_MASK (n mod 8) = Ret x) by (unfold idx; destruct (nth_error BIT_MASK (n mod 8)) as [x|] eqn:E; [exists x; reflexivity|apply nth_error_None in E; cbn [BIT_MASK length] in E; lia]).
    assert (I2 : exists x, idx vals (n / 8) = Ret x) by (unfold idx; destruct (nth_error vals (n / 8)) as [x|] eqn:E; [exists x; reflexivity|apply nth_error_None in E; lia]).
    destruct I1 as [x ->], I2 as [y ->]. cbn [bind]. rewrite upd_ok by exact V1. eexists. split; [reflexivity|].
    clear. generalize (n / 8) (N.lor y x). induction vals as [|z vals IH]; intros i w; [reflexivity|]. destruct i as [|i]; cbn [set_nth length]; [reflexivity|]. rewrite IH. reflexivity. }
  destruct K as (vs & -> & LV). cbn [bind]. eexists. split; [reflexivity|]. cbn [bm_len bm_values]. unfold enough. cbn [bm_len bm_values]. rewrite LV. lia.
Qed.

(** A new bitmap never panics, whatever is appended and however often it is
    cleared.  It has room for its bits and takes its initial 1024 bytes or fewer
    than two bits of memory for each bit appended since the last clear. *)
Theorem C90_bitmap_memory : forall ops, exists b, bm_run bm_new ops = Ret b
  /\ bm_len b = bits_in 0 ops /\ bits_in 0 ops <= 8 * length (bm_values b)
  /\ (length (bm_values b) = 1024 \/ 8 * length (bm_values b) < 2 * bits_in 0 ops).
Proof.
  assert (G : forall ops b n, enough 1024 n b -> 1024 <= length (bm_values b) -> exists b', bm_run b ops = Ret b' /\ enough 1024 (bits_in n ops) b').
  { induction ops as [|[bit|] ops IH]; intros b n E L; cbn [bm_run bits_in].
    - exists b. auto.
    - destruct (append_enough 1024 b bit n ltac:(lia) E L) as (b' & -> & E' & L'). cbn [bind]. apply IH; assumption.
    - apply IH; unfold bm_clear, enough; cbn [bm_len bm_values]; rewrite resize_length; unfold INITIAL_BITMAP_CAP; lia. }
  intros ops. destruct (G ops bm_new 0) as (b & R & E1 & E2 & E3).
  - unfold enough, bm_new. cbn [bm_len bm_values]. rewrite repeat_length. unfold INITIAL_BITMAP_CAP. lia.
  - unfold bm_new. cbn [bm_values]. rewrite repeat_length. unfold INITIAL_BITMAP_CAP. lia.
  - exists b. split; [exact R|]. split; [exact E1|]. split; [exact E2|]. lia.
Qed.
Print Assumptions C90_bitmap_memory.

(** The same for one created with room for at least eight bits, until it is
    cleared. *)
Theorem C90_with_capacity : forall cap bits, 8 <= cap -> exists b, bm_run (bm_with_capacity cap) (map BAppend bits) = Ret b
  /\ bm_len b = length bits /\ length bits <= 8 * length (bm_values b)
  /\ (length (bm_values b) = cap / 8 \/ 8 * length (bm_values b) < 2 * length bits).
Proof.
  intros cap bits C. assert (P : 0 < cap / 8) by (apply Nat.div_str_pos; lia).
  assert (G : forall bits b n, enough (cap / 8) n b -> cap / 8 <= length (bm_values b) -> exists b', bm_run b (map BAppend bits) = Ret b' /\ enough (cap / 8) (n + length bits) b').
  { clear bits. induction bits as [|bit bits IH]; intros b n E L; cbn [map bm_run length].
    - exists b. rewrite Nat.add_0_r. auto.
    - destruct (append_enough _ b bit n P E L) as (b' & -> & E' & L'). cbn [bind]. replace (n + S (length bits)) with (S n + length bits) by lia. apply IH; assumption. }
  destruct (G bits (bm_with_capacity cap) 0) as (b & R & E1 & E2 & E3).
  - unfold enough, bm_with_capacity. cbn [bm_len bm_values]. rewrite repeat_length. lia.
  - unfold bm_with_capacity. cbn [bm_values]. rewrite repeat_length. lia.
  - exists b. cbn [Nat.add] in *. split; [exact R|]. split; [exact E1|]. split; [exact E2|]. lia.
Qed.
Print Assumptions C90_with_capacity.

(** 1024 bytes for a hundred bits, and after a clear of more; two bytes for 16
    bits and four for 17. *)
Example C90_witness :
  let size b ops := match bm_run b ops with Ret b => Some (N.of_nat (length (bm_values b)), bm_len b) | _ => None end in
  size bm_new (repeat (BAppend true) 100) = Some (1024%N, 100)
  /\ size (bm_with_capacity (8 * (1024 + 1024))) [BAppend true; BClear; BAppend false] = Some (1024%N, 1)
  /\ size (bm_with_capacity 16) (repeat (BAppend true) 16) = Some (2%N, 16) /\ size (bm_with_capacity 16) (repeat (BAppend true) 17) = Some (4%N, 17).
Proof. vm_compute. repeat split. Qed.
