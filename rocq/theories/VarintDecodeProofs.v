From Verif Require Import Base BaseProofs Spec Varint.
Open Scope N_scope.

Arguments N.add : simpl never.
Arguments N.mul : simpl never.
Arguments N.sub : simpl never.
Arguments N.modulo : simpl never.
Arguments N.div : simpl never.
Arguments N.shiftl : simpl never.
Arguments N.pow : simpl never.
Arguments N.ltb : simpl never.
Arguments N.leb : simpl never.


(** ** Decoding *)

Lemma idx_cons_0 {A} (x : A) l : idx (x :: l) 0 = Ret x. Proof. reflexivity. Qed.
Lemma idx_cons_S {A} (x : A) l i : idx (x :: l) (S i) = idx l i. Proof. reflexivity. Qed.
Lemma ltb_true a b : a < b -> (a <? b) = true. Proof. intros; lia. Qed.
Lemma ltb_false a b : b <= a -> (a <? b) = false. Proof. intros; lia. Qed.
Lemma low7 c : c < 128 -> (128 + c) mod 128 = c.
Proof. intros H. rewrite N.add_comm, N.add_mod, N.mod_same, N.add_0_r by lia.
  rewrite N.mod_mod by lia. apply N.mod_small; lia. Qed.
Lemma cont_ex b : byte_ok b -> continues b -> exists c, b = 128 + c /\ c < 128.
Proof. unfold byte_ok, continues; intros; exists (b - 128); lia. Qed.

Lemma shl32_7 a : a < 2^24 -> shl32 a 7 = a * 128.
Proof. intros H; apply shl32_ok; change (2^7) with 128; unfold u32_lim; lia. Qed.
Lemma shl32_14 a : a < 2^10 -> shl32 a 14 = a * 16384.
Proof. intros H; apply shl32_ok; change (2^14) with 16384; unfold u32_lim; lia. Qed.
Lemma shl32_21 a : a < 2^10 -> shl32 a 21 = a * 2097152.
Proof. intros H; apply shl32_ok; change (2^21) with 2097152; unfold u32_lim; lia. Qed.
Lemma shl64_28 a : a < 2^32 -> shl64 a 28 = a * 268435456.
Proof. intros H; apply shl64_ok; change (2^28) with 268435456; unfold u64_lim; lia. Qed.

Lemma sub32_top p c : sub32 p (128 + c) 128 = Ret c.
Proof. rewrite sub32_ok by lia. f_equal; lia. Qed.
Lemma sub32_mid p a c k : sub32 p (a + (128 + c) * k) (128 * k) = Ret (a + c * k).
Proof. rewrite sub32_ok by lia. f_equal; lia. Qed.

Ltac vstep :=
  match goal with
  | |- context [bind (Ret _) _] => rewrite bind_ret
  | |- context [idx (_ :: _) 0] => rewrite idx_cons_0
  | |- context [idx (_ :: _) (S _)] => rewrite idx_cons_S
  | |- context [idx [] ?i] => change (idx (@nil N) i) with (@Panic N PIndex)
  | |- context [if (128 + ?c) <? 128 then _ else _] => rewrite (ltb_false (128 + c) 128) by lia
  | |- context [if ?c <? 128 then _ else _] => rewrite (ltb_true c 128) by lia
  | |- context [shl32 ?a 7] => rewrite (shl32_7 a) by (change (2^24) with 16777216; lia)
  | |- context [shl32 ?a 14] => rewrite (shl32_14 a) by (change (2^10) with 1024; lia)
  | |- context [shl32 ?a 21] => rewrite (shl32_21 a) by (change (2^10) with 1024; lia)
  | |- context [shl64 ?a 28] => rewrite (shl64_28 a) by (change (2^32) with 4294967296; lia)
  | |- context [sub32 ?p (128 + ?c) 128] => rewrite (sub32_top p c)
  | |- context [sub32 ?p (?a + (128 + ?c) * ?k) (128 * ?k)] => rewrite (sub32_mid p a c k)
  | |- context [add32 ?p ?a ?b] => rewrite (add32_ok p a b) by (unfold u32_lim; lia)
  | |- context [add64 ?p ?a ?b] => rewrite (add64_ok p a b) by (unfold u64_lim; lia)
  end.

Ltac expose :=
  repeat match goal with
  | H : Forall continues (_ :: _) |- _ => inversion H; clear H; subst
  | H : Forall _ [] |- _ => clear H
  | H : bytes_ok [] |- _ => clear H
  | H : bytes_ok (_ :: _) |- _ => inversion H; clear H; subst
  | H : Forall byte_ok (_ :: _) |- _ => inversion H; clear H; subst
  | H1 : byte_ok ?b, H2 : continues ?b |- _ =>
      destruct (cont_ex b H1 H2) as (?c & -> & ?Hc); clear H1 H2
  end.

Ltac decode_case :=
  expose; cbn [app length groups_value]; rewrite ?low7 by assumption;
  repeat match goal with Hb : ?b < 128 |- context [?b mod 128] => rewrite (N.mod_small b 128) by exact Hb end;
  repeat vstep.

Lemma ok_pair_eq (a b : N) (n : nat) : a = b -> @Ret (result (N * nat)) (Ok (a, n)) = Ret (Ok (b, n)).
Proof. intros ->; reflexivity. Qed.

Lemma shl64_56 a : a < 256 -> shl64 a 56 = a * 72057594037927936.
Proof. intros H; apply shl64_ok; change (2^56) with 72057594037927936; unfold u64_lim; lia. Qed.

Lemma decode_stop p pre b rest :
  bytes_ok pre -> Forall continues pre -> b < 128 -> (length pre < 10)%nat ->
  decode_varint p (pre ++ b :: rest)
  = Ret (Ok (groups_value (pre ++ [b]) mod u64_lim, S (length pre))).
Proof.
  intros Hok Hc Hb Hlen.
  unfold decode_varint.
  do 8 (destruct pre as [|?b pre];
    [ decode_case; apply ok_pair_eq; rewrite N.mod_small by (unfold u64_lim; lia); lia | ]).
  destruct pre as [|?b pre].
  { decode_case. rewrite shl64_56 by lia.
    rewrite add64_ok by (unfold u64_lim; lia). rewrite bind_ret.
    apply ok_pair_eq. rewrite N.mod_small by (unfold u64_lim; lia). lia. }
  destruct pre as [|?b pre]; [ | cbn [length] in Hlen; lia ].
  decode_case. unfold shl64. rewrite N.shiftl_mul_pow2.
  change (2^56) with 72057594037927936.
  match goal with |- context [add64 p ?v (?q * _ mod _)] => set (V := v); set (Q := q) end.
  assert (HV : V < 72057594037927936) by (subst V; lia).
  assert (HQ : Q < 16384) by (subst Q; lia).
  assert (E : (Q * 72057594037927936) mod u64_lim = (Q mod 256) * 72057594037927936).
  { unfold u64_lim. change 18446744073709551616 with (256 * 72057594037927936).
    rewrite N.mul_mod_distr_r by lia. reflexivity. }
  rewrite E.
  assert (HQm : Q mod 256 < 256) by (apply N.mod_lt; lia).
  rewrite add64_ok by (unfold u64_lim; lia). rewrite bind_ret.
  apply ok_pair_eq.
  match goal with |- _ = ?g mod _ => replace g with (V + Q * 72057594037927936) by (subst V Q; lia) end.
  rewrite (N.div_mod' Q 256) at 2.
  replace (V + (256 * (Q / 256) + Q mod 256) * 72057594037927936)
    with ((V + Q mod 256 * 72057594037927936) + (Q / 256) * u64_lim) by (unfold u64_lim; lia).
  rewrite N.mod_add by (unfold u64_lim; lia).
  symmetry. apply N.mod_small. unfold u64_lim; lia.
Qed.

Lemma decode_overrun p pre rest :
  bytes_ok pre -> Forall continues pre -> length pre = 10%nat ->
  decode_varint p (pre ++ rest) = Ret Err.
Proof.
  intros Hok Hc Hlen.
  unfold decode_varint.
  do 10 (destruct pre as [|?b pre]; [cbn [length] in Hlen; lia | ]).
  destruct pre as [|?b pre]; [ | cbn [length] in Hlen; lia ].
  expose; cbn [app]. repeat vstep. reflexivity.
Qed.

Lemma decode_truncated p bs :
  bytes_ok bs -> Forall continues bs -> (length bs < 10)%nat ->
  decode_varint p bs = Panic PIndex.
Proof.
  intros Hok Hc Hlen.
  unfold decode_varint.
  do 10 (destruct bs as [|?b bs]; [ expose; repeat vstep; reflexivity | ]).
  cbn [length] in Hlen; lia.
Qed.

