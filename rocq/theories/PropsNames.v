(** C49: the names of segment files. *)
From Verif Require Import Base Io Names.
From Coq Require Import ZifyN.
Open Scope N_scope.
Ltac Zify.zify_post_hook ::= Z.to_euclidean_division_equations.

(** A character of the URL-safe alphabet. *)
Definition url_safe (c : N) : Prop :=
  65 <= c <= 90 \/ 97 <= c <= 122 \/ 48 <= c <= 57 \/ c = 45 \/ c = 95.

(** A 16-byte identifier. *)
Definition is_id (id : list N) : Prop := length id = 16%nat /\ Forall (fun b => b < 256) id.

Lemma b64_char_safe v : v < 64 -> url_safe (b64_char v).
Proof.
  intros H. unfold b64_char, url_safe.
  destruct (N.ltb_spec v 26); [lia|]. destruct (N.ltb_spec v 52); [lia|]. destruct (N.ltb_spec v 62); [lia|].
  destruct (N.eqb_spec v 62); lia.
Qed.

Lemma b64_char_inj v u : v < 64 -> u < 64 -> b64_char v = b64_char u -> v = u.
Proof.
  intros Hv Hu. unfold b64_char.
  destruct (N.ltb_spec v 26), (N.ltb_spec u 26), (N.ltb_spec v 52), (N.ltb_spec u 52),
    (N.ltb_spec v 62), (N.ltb_spec u 62), (N.eqb_spec v 62), (N.eqb_spec u 62); lia.
Qed.

Lemma three_ind (P : list N -> Prop) :
  P [] -> (forall a, P [a]) -> (forall a b, P [a; b]) -> (forall a b c l, P l -> P (a :: b :: c :: l)) -> forall l, P l.
Proof.
  intros H0 H1 H2 H3 l. assert (G : P l /\ (forall a, P (a :: l)) /\ (forall a b, P (a :: b :: l))); [|tauto].
  induction l as [|x l (I0 & I1 & I2)]; auto.
Qed.

Lemma b64_length l : (8 * length l <= 6 * length (b64_encode l) <= 8 * length l + 5)%nat.
Proof.
  induction l as [|a|a b|a b c l IH] using three_ind; cbn [b64_encode length] in *; lia.
Qed.

Lemma b64_safe l : Forall (fun b => b < 256) l -> Forall url_safe (b64_encode l).
Proof.
  induction l as [|a|a b|a b c l IH] using three_ind; intros F; cbn [b64_encode];
    repeat match goal with H : Forall _ (_ :: _) |- _ => apply Forall_cons_iff in H; destruct H end;
    repeat (apply Forall_cons; [apply b64_char_safe; lia|]); try constructor. auto.
Qed.

Lemma b64_inj l m : length l = length m -> Forall (fun b => b < 256) l -> Forall (fun b => b < 256) m ->
  b64_encode l = b64_encode m -> l = m.
Proof.
  revert m. induction l as [|a|a b|a b c l IH] using three_ind; intros m L F G E.
  - destruct m; [reflexivity|discriminate].
  - destruct m as [|a' [|]]; try discriminate. cbn [b64_encode] in E. injection E as E1 E2.
    apply Forall_cons_iff in F. apply Forall_cons_iff in G. destruct F as [Fa _], G as [Ga _].
    apply b64_char_inj in E1; [|lia..]. apply b64_char_inj in E2; [|lia..]. f_equal. lia.
  - destruct m as [|a' [|b' [|]]]; try discriminate. cbn [b64_encode] in E. injection E as E1 E2 E3.
    repeat match goal with H : Forall _ (_ :: _) |- _ => apply Forall_cons_iff in H; destruct H end.
    apply b64_char_inj in E1; [|lia..]. apply b64_char_inj in E2; [|lia..]. apply b64_char_inj in E3; [|lia..].
    assert (a = a') by lia. subst a'. assert (b = b') by lia. congruence.
  - destruct m as [|a' [|b' [|c' m]]]; try discriminate. cbn [b64_encode] in E. injection E as E1 E2 E3 E4 E.
    repeat match goal with H : Forall _ (_ :: _) |- _ => apply Forall_cons_iff in H; destruct H end.
    apply b64_char_inj in E1; [|lia..]. apply b64_char_inj in E2; [|lia..]. apply b64_char_inj in E3; [|lia..].
    apply b64_char_inj in E4; [|lia..].
    assert (a = a') by lia. subst a'. assert (b = b') by lia. subst b'. assert (c = c') by lia. subst c'.
    f_equal. f_equal. f_equal. cbn [length] in L. apply IH; auto; lia.
Qed.

Lemma id_chars id : is_id id -> length (b64_encode id) = 22%nat.
Proof. intros [L _]. pose proof (b64_length id) as B. rewrite L in B. lia. Qed.

(** A name is 22 characters of the alphabet, a dot and "dat" or "idx". *)
Theorem C49_shape : forall id, is_id id ->
  exists stem, length stem = 22%nat /\ Forall url_safe stem
    /\ data_file_name id = stem ++ [46; 100; 97; 116] /\ index_file_name id = stem ++ [46; 105; 100; 120]
    /\ length (data_file_name id) = 26%nat /\ length (index_file_name id) = 26%nat.
Proof.
  intros id H. exists (b64_encode id). pose proof (id_chars id H) as L. split; [exact L|].
  split; [apply b64_safe, H|]. split; [reflexivity|]. split; [reflexivity|].
  unfold data_file_name, index_file_name. rewrite !app_length, L. split; reflexivity.
Qed.
Print Assumptions C49_shape.

(** So it contains no slash, no zero byte and nothing outside ASCII. *)
Theorem C49_valid : forall id c, is_id id -> In c (data_file_name id) \/ In c (index_file_name id) -> url_safe c \/ c = 46.
Proof.
  intros id c H X. destruct (C49_shape id H) as (stem & _ & S & E1 & E2 & _). rewrite E1, E2, !in_app_iff in X.
  rewrite Forall_forall in S. unfold url_safe in *. cbn [In] in X.
  destruct X as [[X|X]|[X|X]]; [left; apply S; exact X|lia|left; apply S; exact X|lia].
Qed.
Print Assumptions C49_valid.

(** Two segments never share a file, in whatever directory. *)
Theorem C49_distinct : forall base id1 id2, is_id id1 -> is_id id2 ->
  (data_path base id1 = data_path base id2 -> id1 = id2)
  /\ (index_path base id1 = index_path base id2 -> id1 = id2)
  /\ data_path base id1 <> index_path base id2.
Proof.
  intros base id1 id2 H1 H2. pose proof (id_chars id1 H1) as L1. pose proof (id_chars id2 H2) as L2.
  assert (J : forall n m, path_join base n = path_join base m -> n = m).
  { intros n m E. unfold path_join in E. destruct base as [|x b]; [exact E|].
    destruct (last (x :: b) 0 =? 47); apply app_inv_head in E; [exact E|]. injection E as E. exact E. }
  assert (A : forall x y s t : list N, length x = length y -> x ++ s = y ++ t -> x = y /\ s = t).
  { induction x as [|c x IH]; intros [|c' y] s t L E; try discriminate; [auto|].
    cbn in E. injection E as -> E. destruct (IH y s t) as [-> ->]; auto. }
  unfold data_path, index_path, data_file_name, index_file_name.
  split; [|split].
  - intros E. apply J, A in E; [|congruence]. destruct E as [E _]. destruct H1, H2. apply b64_inj; auto. congruence.
  - intros E. apply J, A in E; [|congruence]. destruct E as [E _]. destruct H1, H2. apply b64_inj; auto. congruence.
  - intros E. apply J, A in E; [|congruence]. destruct E as [_ E]. discriminate.
Qed.
Print Assumptions C49_distinct.

Definition id_a : list N := [0; 17; 34; 51; 68; 85; 102; 119; 136; 153; 170; 187; 204; 221; 238; 255].

(** The identifier 00112233-4455-6677-8899-aabbccddeeff in directory "/d". *)
Example C49_witness : is_id id_a
  /\ data_path [47; 100] id_a
     = [47; 100; 47; 65; 66; 69; 105; 77; 48; 82; 86; 90; 110; 101; 73; 109; 97; 113; 55; 122; 78; 51; 117; 95; 119; 46; 100; 97; 116].
Proof. split; [split; [reflexivity|repeat constructor]|vm_compute; reflexivity]. Qed.

(** Distinct only as long as the file system tells upper from lower case: *)
Definition lower (c : N) : N := if (65 <=? c) && (c <=? 90) then c + 32 else c.
Example C49_names_differ_only_in_case :
  let other := 104 :: tl id_a in
  is_id other /\ other <> id_a /\ map lower (data_file_name other) = map lower (data_file_name id_a).
Proof. split; [split; [reflexivity|repeat constructor]|]. split; [discriminate|vm_compute; reflexivity]. Qed.
