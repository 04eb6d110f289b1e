(** Lemmas about the vocabulary of [Base]. *)
From Verif Require Import Base.
Ltac Zify.zify_post_hook ::= Z.div_mod_to_equations.

Lemma bind_ret {A B} (a : A) (f : A -> outcome B) : bind (Ret a) f = f a.
Proof. reflexivity. Qed.

Lemma bind_assoc {A B C} (m : outcome A) (f : A -> outcome B) (g : B -> outcome C) :
  bind (bind m f) g = bind m (fun x => bind (f x) g).
Proof. destruct m; reflexivity. Qed.

Lemma bind_ext {A B} (m : outcome A) (f g : A -> outcome B) :
  (forall x, f x = g x) -> bind m f = bind m g.
Proof. intros H; destruct m; simpl; auto. Qed.

Section Arith.
Open Scope N_scope.

Lemma uadd_ok lim p a b : a + b < lim -> uadd lim p a b = Ret (a + b).
Proof. intros H; unfold uadd. destruct (N.ltb_spec (a + b) lim); [reflexivity | lia]. Qed.

Lemma usub_ok lim p a b : b <= a -> usub lim p a b = Ret (a - b).
Proof. intros H; unfold usub. destruct (N.leb_spec b a); [reflexivity | lia]. Qed.

Lemma add32_ok p a b : a + b < u32_lim -> add32 p a b = Ret (a + b).
Proof. apply uadd_ok. Qed.
Lemma add64_ok p a b : a + b < u64_lim -> add64 p a b = Ret (a + b).
Proof. apply uadd_ok. Qed.
Lemma sub32_ok p a b : b <= a -> sub32 p a b = Ret (a - b).
Proof. apply usub_ok. Qed.
Lemma sub64_ok p a b : b <= a -> sub64 p a b = Ret (a - b).
Proof. apply usub_ok. Qed.

Lemma shl32_ok a k : a * 2 ^ k < u32_lim -> shl32 a k = a * 2 ^ k.
Proof. intros H; unfold shl32. rewrite N.shiftl_mul_pow2. apply N.mod_small; exact H. Qed.
Lemma shl64_ok a k : a * 2 ^ k < u64_lim -> shl64 a k = a * 2 ^ k.
Proof. intros H; unfold shl64. rewrite N.shiftl_mul_pow2. apply N.mod_small; exact H. Qed.
End Arith.

Section Lists.
Open Scope nat_scope.
Context {A : Type}.
Implicit Types (l : list A) (x : A).

Lemma idx_some l i x : nth_error l i = Some x -> idx l i = Ret x.
Proof. intros H; unfold idx; rewrite H; reflexivity. Qed.

Lemma idx_oob l i : length l <= i -> idx l i = Panic PIndex.
Proof. intros H; unfold idx. rewrite (proj2 (nth_error_None l i) H). reflexivity. Qed.

Lemma set_nth_length l i x : length (set_nth l i x) = length l.
Proof. revert i; induction l as [|y l IH]; intros [|i]; simpl; auto. Qed.

Lemma set_nth_eq l i x : i < length l -> nth_error (set_nth l i x) i = Some x.
Proof.
  revert i; induction l as [|y l IH]; intros [|i] H; simpl in *; try lia; auto.
  apply IH; lia.
Qed.

Lemma set_nth_neq l i j x : i <> j -> nth_error (set_nth l i x) j = nth_error l j.
Proof.
  revert i j; induction l as [|y l IH]; intros [|i] [|j] H; simpl; auto; try lia.
Qed.

Lemma set_nth_split l i x : i < length l ->
  set_nth l i x = firstn i l ++ x :: skipn (S i) l.
Proof.
  revert i; induction l as [|y l IH]; intros [|i] H; simpl in *; try lia; auto.
  rewrite IH by lia. reflexivity.
Qed.

Lemma set_nth_app_r l1 l2 i x : length l1 <= i ->
  set_nth (l1 ++ l2) i x = l1 ++ set_nth l2 (i - length l1) x.
Proof.
  revert i; induction l1 as [|y l1 IH]; intros i H; simpl in *.
  - rewrite Nat.sub_0_r; reflexivity.
  - destruct i as [|i]; [lia|]. rewrite IH by lia. reflexivity.
Qed.

Lemma upd_ok l i x : i < length l -> upd l i x = Ret (set_nth l i x).
Proof. intros H; unfold upd. destruct (Nat.ltb_spec i (length l)); [reflexivity|lia]. Qed.

Lemma upd_oob l i x : length l <= i -> upd l i x = Panic PIndex.
Proof. intros H; unfold upd. destruct (Nat.ltb_spec i (length l)); [lia|reflexivity]. Qed.

Lemma slice_ok l s e : s <= e -> e <= length l -> slice l s e = Ret (firstn (e - s) (skipn s l)).
Proof.
  intros H1 H2; unfold slice.
  destruct (Nat.leb_spec s e); [|lia]. destruct (Nat.leb_spec e (length l)); [|lia]. reflexivity.
Qed.

Lemma slice_ret_inv l s e r : slice l s e = Ret r ->
  s <= e /\ e <= length l /\ r = firstn (e - s) (skipn s l).
Proof.
  unfold slice. destruct (Nat.leb_spec s e); destruct (Nat.leb_spec e (length l)); simpl;
    intros H'; inversion H'; auto.
Qed.

Lemma resize_length l n x : length (resize l n x) = n.
Proof. unfold resize. rewrite app_length, firstn_length, repeat_length. lia. Qed.

Lemma resize_grow l n x : length l <= n -> resize l n x = l ++ repeat x (n - length l).
Proof. intros H; unfold resize. rewrite firstn_all2 by lia. reflexivity. Qed.

Lemma resize_trunc l n x : n <= length l -> resize l n x = firstn n l.
Proof. intros H; unfold resize. replace (n - length l) with 0 by lia. apply app_nil_r. Qed.

Lemma nth_error_repeat_lt x n i : i < n -> nth_error (repeat x n) i = Some x.
Proof.
  revert i; induction n as [|n IH]; intros [|i] H; simpl; try lia; auto. apply IH; lia.
Qed.

Lemma firstn_app_l l1 l2 n : n <= length l1 -> firstn n (l1 ++ l2) = firstn n l1.
Proof.
  intros H. rewrite firstn_app. replace (n - length l1) with 0 by lia.
  simpl. apply app_nil_r.
Qed.

Lemma skipn_app_l l1 l2 n : n <= length l1 -> skipn n (l1 ++ l2) = skipn n l1 ++ l2.
Proof.
  intros H. rewrite skipn_app. replace (n - length l1) with 0 by lia. reflexivity.
Qed.

Lemma firstn_app_exact l1 l2 : firstn (length l1) (l1 ++ l2) = l1.
Proof. rewrite firstn_app_l by lia. apply firstn_all. Qed.

Lemma skipn_app_exact l1 l2 : skipn (length l1) (l1 ++ l2) = l2.
Proof. rewrite skipn_app_l by lia. rewrite skipn_all. reflexivity. Qed.

Lemma firstn_app_len l1 l2 n : n = length l1 -> firstn n (l1 ++ l2) = l1.
Proof. intros ->. apply firstn_app_exact. Qed.

Lemma skipn_app_len l1 l2 n : n = length l1 -> skipn n (l1 ++ l2) = l2.
Proof. intros ->. apply skipn_app_exact. Qed.

Lemma firstn_add l a b : firstn (a + b) l = firstn a l ++ firstn b (skipn a l).
Proof.
  revert l; induction a as [|a IH]; intros l; simpl; auto.
  destruct l as [|x l]; simpl; [rewrite firstn_nil; reflexivity|]. rewrite IH; reflexivity.
Qed.

Lemma skipn_skipn_add l a b : skipn a (skipn b l) = skipn (b + a) l.
Proof.
  revert l; induction b as [|b IH]; intros l; simpl; auto.
  destruct l as [|x l]; simpl; [apply skipn_nil|]. apply IH.
Qed.

Lemma nth_error_firstn_lt l n i : i < n -> nth_error (firstn n l) i = nth_error l i.
Proof.
  revert l i; induction n as [|n IH]; intros l i H; [lia|].
  destruct l as [|x l]; simpl; [destruct i; reflexivity|].
  destruct i as [|i]; simpl; auto. apply IH; lia.
Qed.

Lemma nth_error_firstn_ge l n i : n <= i -> nth_error (firstn n l) i = None.
Proof. intros H. apply nth_error_None. rewrite firstn_length. lia. Qed.

Lemma nth_error_skipn l n i : nth_error (skipn n l) i = nth_error l (n + i).
Proof.
  revert l; induction n as [|n IH]; intros l; simpl; auto.
  destruct l as [|x l]; simpl; [destruct i; reflexivity|]. apply IH.
Qed.

Lemma list_eq_nth_error l1 l2 :
  length l1 = length l2 -> (forall i, i < length l1 -> nth_error l1 i = nth_error l2 i) -> l1 = l2.
Proof.
  revert l2; induction l1 as [|x l1 IH]; intros [|y l2] HL H; simpl in *; try lia; auto.
  f_equal.
  - specialize (H 0 ltac:(lia)). simpl in H. congruence.
  - apply IH; [lia|]. intros i Hi. specialize (H (S i) ltac:(lia)). exact H.
Qed.
End Lists.

Lemma bytes_ok_app l1 l2 : bytes_ok (l1 ++ l2) <-> bytes_ok l1 /\ bytes_ok l2.
Proof. apply Forall_app. Qed.
