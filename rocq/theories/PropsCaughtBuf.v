(** C101: what a buffer shows after calls that panicked. *)
From Verif Require Import Base BaseProofs Spec Buffers Observe BitmapProofs BuffersProofs Rle Sink PrimEnc BinEnc Caught.
Open Scope nat_scope.

(** * Appending rows, going on after a panic *)

(** The buffer after appending [rows] one by one, whatever the calls do, and the
    rows of the calls that returned. *)
Section Appending.
Context {B T : Type} (append : B -> T -> caught B unit) (append_null : B -> caught B unit).

Definition append_row (b : B) (r : option T) : caught B unit :=
  match r with Some v => append b v | None => append_null b end.

Fixpoint append_anyway (b : B) (rows : list (option T)) : B * list (option T) :=
  match rows with
  | [] => (b, [])
  | r :: rest =>
      let c := append_row b r in
      let x := append_anyway (fst c) rest in
      (fst x, match snd c with Ret _ => r :: snd x | _ => snd x end)
  end.
End Appending.

(** The rows a buffer without nulls takes. *)
Definition takes {T} (nullable : bool) (rows : list (option T)) : list (option T) :=
  if nullable then rows else filter is_some rows.

(** The rows a binary buffer takes: bytes count even if the call panicked. *)
Fixpoint takes_bytes (nullable : bool) (total : N) (rows : list (option (list N))) : list (option (list N)) :=
  match rows with
  | [] => []
  | None :: rest => if nullable then None :: takes_bytes nullable total rest else takes_bytes nullable total rest
  | Some v :: rest =>
      let total := (total + N.of_nat (length v))%N in
      if (total <=? 4294967295)%N then Some v :: takes_bytes nullable total rest else takes_bytes nullable total rest
  end.

Lemma bm_append_kept b bits st x : bm_rep b bits st ->
  snd (bm_append_at b x) = Ret tt /\ bm_rep (fst (bm_append_at b x)) (bits ++ [x || st (length bits)]) st.
Proof.
  intros H. destruct (append_rep b bits st x H) as (b' & E & H'). rewrite bm_append_same in E. unfold uncaught in E.
  destruct (snd (bm_append_at b x)) as [[]|k|]; [|discriminate..]. injection E as ->. auto.
Qed.

Lemma validity_append_kept {T} v nl (acc : list (option T)) (r : option T) x : val_rep v nl (validity_of acc) no_stale -> is_some r = x -> rows_allowed nl [r] ->
  snd (validity_append_at v x) = Ret tt /\ val_rep (fst (validity_append_at v x)) nl (validity_of (acc ++ [r])) no_stale.
Proof.
  intros H <- HA. rewrite validity_app. destruct v as [bm|]; cbn [val_rep validity_append_at fst snd] in *; [|auto].
  destruct H as [-> H]. destruct (bm_append_kept bm _ _ (is_some r) H) as [E H']. unfold no_stale in H'. rewrite orb_false_r in H'.
  split; [exact E|]. split; [reflexivity|exact H'].
Qed.

Lemma validity_null_kept {T} v nl (acc : list (option T)) : val_rep v nl (validity_of acc) no_stale ->
  if nl then snd (validity_append_null_at v) = Ret tt /\ val_rep (fst (validity_append_null_at v)) nl (validity_of (acc ++ [None])) no_stale
  else validity_append_null_at v = (v, Panic PExplicit).
Proof.
  intros H. destruct v as [bm|]; cbn [val_rep validity_append_null_at fst snd] in *; [|subst nl; reflexivity].
  destruct H as [-> H]. rewrite validity_app. destruct (bm_append_kept bm _ _ false H) as [E H']. unfold no_stale in H'. cbn [orb] in H'.
  split; [exact E|]. split; [reflexivity|exact H'].
Qed.

Lemma allowed_snoc {T} nl (acc : list (option T)) r : rows_allowed nl acc -> rows_allowed nl [r] -> rows_allowed nl (acc ++ [r]).
Proof. intros [H|H] [K|K]; [left; exact H..| left; exact K|right; apply Forall_app; auto]. Qed.

Lemma allowed_some {T} nl (v : T) : rows_allowed nl [Some v].
Proof. right. constructor; [reflexivity|constructor]. Qed.

Lemma takes_cons {T} nl (r : option T) rest : takes nl (r :: rest) = (if nl || is_some r then [r] else []) ++ takes nl rest.
Proof. unfold takes. destruct nl, r; reflexivity. Qed.

Lemma prim_anyway {T} nl rows : forall (b : prim_buf T) acc,
  pb_values b = somes acc -> val_rep (pb_validity b) nl (validity_of acc) no_stale -> rows_allowed nl acc ->
  let x := append_anyway pb_append_at pb_append_null_at b rows in
  snd x = takes nl rows
  /\ pb_values (fst x) = somes (acc ++ snd x) /\ val_rep (pb_validity (fst x)) nl (validity_of (acc ++ snd x)) no_stale /\ rows_allowed nl (acc ++ snd x).
Proof.
  induction rows as [|r rest IH]; intros b acc V W A; cbn [append_anyway fst snd].
  { rewrite app_nil_r. split; [destruct nl; reflexivity|]. auto. }
  rewrite takes_cons. destruct r as [v|]; cbn [append_row is_some]; rewrite ?orb_true_r, ?orb_false_r.
  - destruct (validity_append_kept _ _ acc (Some v) true W eq_refl (allowed_some nl v)) as [E W'].
    assert (X : pb_append_at b v = (mk_prim (pb_values b ++ [v]) (fst (validity_append_at (pb_validity b) true)), Ret tt)) by (unfold pb_append_at; cbn zeta; rewrite E; reflexivity).
    rewrite X. cbn [fst snd].
    specialize (IH (mk_prim (pb_values b ++ [v]) (fst (validity_append_at (pb_validity b) true))) (acc ++ [Some v])). cbn [pb_values pb_validity] in IH.
    assert (V' : pb_values b ++ [v] = somes (acc ++ [Some v])) by (rewrite somes_app, V; reflexivity).
    specialize (IH V' W' (allowed_snoc _ _ _ A (allowed_some nl v))). cbn zeta in IH.
    rewrite <- !app_assoc in IH. destruct IH as (I1 & I2 & I3 & I4). split; [cbn [app]; f_equal; exact I1|]. auto.
  - pose proof (validity_null_kept _ _ acc W) as K. destruct nl.
    + destruct K as [E W'].
      assert (X : pb_append_null_at b = (mk_prim (pb_values b) (fst (validity_append_null_at (pb_validity b))), Ret tt)) by (unfold pb_append_null_at; cbn zeta; rewrite E; reflexivity).
      rewrite X. cbn [fst snd].
      specialize (IH (mk_prim (pb_values b) (fst (validity_append_null_at (pb_validity b)))) (acc ++ [None])). cbn [pb_values pb_validity] in IH.
      assert (V' : pb_values b = somes (acc ++ [None])) by (rewrite somes_app, V; cbn [somes]; rewrite app_nil_r; reflexivity).
      specialize (IH V' W' (or_introl eq_refl)). cbn zeta in IH.
      rewrite <- !app_assoc in IH. destruct IH as (I1 & I2 & I3 & I4). split; [cbn [app]; f_equal; exact I1|]. auto.
    + assert (X : pb_append_null_at b = (b, Panic PExplicit)) by (unfold pb_append_null_at; cbn zeta; rewrite K; destruct b; reflexivity).
      rewrite X. cbn [fst snd app]. apply IH; assumption.
Qed.

(** C101 for fixed-width buffers: after any calls of [append] and [append_null],
    whether they panicked or not, the buffer shows the rows of the calls that
    returned; these are all of them except the nulls of a buffer without nulls. *)
Theorem C101_primitive_partial : forall (T : Type) nullable (rows : list (option T)),
  let x := append_anyway pb_append_at pb_append_null_at (pb_new nullable) rows in
  pb_holds (fst x) nullable (snd x) /\ snd x = takes nullable rows.
Proof.
  intros T nl rows. destruct (prim_anyway nl rows (pb_new nl) [] eq_refl (val_rep_new nl) (or_intror (Forall_nil _))) as (I1 & I2 & I3 & I4).
  cbn zeta in *. cbn [app] in *. split; [|exact I1]. split; [exact I2|]. apply (val_rep_shows _ _ _ no_stale); assumption.
Qed.
Print Assumptions C101_primitive_partial.

Lemma bin_anyway nl rows : forall (b : bin_buf) acc junk,
  bb_data b = concat (somes acc) ++ junk -> bb_offsets b = running_offsets 0 (somes acc) -> (junk = [] \/ u32_max < N.of_nat (length (bb_data b)))%N ->
  val_rep (bb_validity b) nl (validity_of acc) no_stale -> rows_allowed nl acc ->
  let x := append_anyway bb_append_at bb_append_null_at b rows in
  snd x = takes_bytes nl (N.of_nat (length (bb_data b))) rows
  /\ (exists junk, bb_data (fst x) = concat (somes (acc ++ snd x)) ++ junk)
  /\ bb_offsets (fst x) = running_offsets 0 (somes (acc ++ snd x))
  /\ val_rep (bb_validity (fst x)) nl (validity_of (acc ++ snd x)) no_stale /\ rows_allowed nl (acc ++ snd x)
  /\ length (bb_data (fst x)) = length (bb_data b) + length (concat (somes rows)).
Proof.
  induction rows as [|r rest IH]; intros b acc junk D O J W A; cbn [append_anyway fst snd].
  { rewrite app_nil_r. cbn [somes concat length]. rewrite Nat.add_0_r. split; [reflexivity|]. split; [exists junk; exact D|]. auto. }
  destruct r as [v|]; cbn [append_row takes_bytes].
  - change 4294967295%N with u32_max.
    pose (d1 := bb_data b ++ v).
    assert (X : bb_append_at b v = if (N.of_nat (length d1) <=? u32_max)%N
      then (mk_bin d1 (bb_offsets b ++ [N.of_nat (length d1)]) (fst (validity_append_at (bb_validity b) true)), snd (validity_append_at (bb_validity b) true))
      else (mk_bin d1 (bb_offsets b) (bb_validity b), Panic PExpect)) by reflexivity.
    rewrite X. subst d1. clear X.
    replace (N.of_nat (length (bb_data b)) + N.of_nat (length v))%N with (N.of_nat (length (bb_data b ++ v))) by (rewrite app_length; lia).
    destruct (N.leb_spec (N.of_nat (length (bb_data b ++ v))) u32_max) as [L|L]; cbn [fst snd].
    + assert (junk = []) as -> by (destruct J as [J|J]; [exact J|rewrite app_length in L; exfalso; lia]). rewrite app_nil_r in D.
      destruct (validity_append_kept _ _ acc (Some v) true W eq_refl (allowed_some nl v)) as [E W']. rewrite E.
      specialize (IH (mk_bin (bb_data b ++ v) (bb_offsets b ++ [N.of_nat (length (bb_data b ++ v))]) (fst (validity_append_at (bb_validity b) true))) (acc ++ [Some v]) []).
      cbn [bb_data bb_offsets bb_validity] in IH. rewrite somes_app in IH. cbn [somes] in IH.
      assert (D' : bb_data b ++ v = concat (somes acc ++ [v]) ++ []) by (rewrite app_nil_r, concat_app, D; cbn [concat]; rewrite app_nil_r; reflexivity).
      assert (O' : bb_offsets b ++ [N.of_nat (length (bb_data b ++ v))] = running_offsets 0 (somes acc ++ [v])) by (rewrite running_app, O, D, app_length, Nat2N.inj_add; reflexivity).
      specialize (IH D' O' (or_introl eq_refl) W' (allowed_snoc _ _ _ A (allowed_some nl v))). cbn zeta in IH.
      rewrite <- !app_assoc in IH. destruct IH as (I1 & I2 & I3 & I4 & I5 & I6). split; [f_equal; exact I1|]. split; [exact I2|]. split; [exact I3|]. split; [exact I4|]. split; [exact I5|].
      rewrite I6. cbn [somes concat]. rewrite !app_length. lia.
    + specialize (IH (mk_bin (bb_data b ++ v) (bb_offsets b) (bb_validity b)) acc (junk ++ v)). cbn [bb_data bb_offsets bb_validity] in IH.
      assert (D' : bb_data b ++ v = concat (somes acc) ++ junk ++ v) by (rewrite D, <- app_assoc; reflexivity).
      specialize (IH D' O (or_intror L) W A). cbn zeta in IH. destruct IH as (I1 & I2 & I3 & I4 & I5 & I6). split; [exact I1|]. split; [exact I2|]. split; [exact I3|]. split; [exact I4|]. split; [exact I5|].
      rewrite I6. cbn [somes concat]. rewrite !app_length. lia.
  - pose proof (validity_null_kept _ _ acc W) as K. cbn [somes concat]. destruct nl.
    + destruct K as [E W'].
      assert (X : bb_append_null_at b = (mk_bin (bb_data b) (bb_offsets b) (fst (validity_append_null_at (bb_validity b))), Ret tt)) by (unfold bb_append_null_at; cbn zeta; rewrite E; reflexivity).
      rewrite X. cbn [fst snd].
      specialize (IH (mk_bin (bb_data b) (bb_offsets b) (fst (validity_append_null_at (bb_validity b)))) (acc ++ [None]) junk). cbn [bb_data bb_offsets bb_validity] in IH.
      rewrite somes_app in IH. cbn [somes] in IH. rewrite app_nil_r in IH. specialize (IH D O J W' (or_introl eq_refl)). cbn zeta in IH.
      rewrite <- !app_assoc in IH. destruct IH as (I1 & I2 & I3 & I4 & I5 & I6). split; [f_equal; exact I1|]. auto.
    + assert (X : bb_append_null_at b = (b, Panic PExplicit)) by (unfold bb_append_null_at; cbn zeta; rewrite K; destruct b; reflexivity).
      rewrite X. cbn [fst snd]. apply IH with (junk := junk); assumption.
Qed.

(** C101 for binary buffers: the same; a value that does not fit leaves its bytes
    behind the data of the rows, and once the bytes are more than 2^32 - 1 every
    [append] panics, even of no bytes, and nulls still work. *)
Theorem C101_binary_partial : forall nullable (rows : list (option (list N))),
  let x := append_anyway bb_append_at bb_append_null_at (bb_new nullable) rows in
  bb_offsets (fst x) = running_offsets 0 (somes (snd x))
  /\ firstn (length (concat (somes (snd x)))) (bb_data (fst x)) = concat (somes (snd x))
  /\ validity_shows (bb_validity (fst x)) nullable (snd x)
  /\ snd x = takes_bytes nullable 0 rows
  /\ ((N.of_nat (length (concat (somes rows))) <= 4294967295)%N -> bb_holds (fst x) nullable (takes nullable rows))
  /\ ((4294967295 < N.of_nat (length (concat (somes rows))))%N -> forall v, snd (bb_append_at (fst x) v) = Panic PExpect).
Proof.
  intros nl rows. destruct (bin_anyway nl rows (bb_new nl) [] [] eq_refl eq_refl (or_introl eq_refl) (val_rep_new nl) (or_intror (Forall_nil _))) as (I1 & (junk & I2) & I3 & I4 & I5 & I6).
  cbn zeta in *. cbn [app] in *. split; [exact I3|]. split; [rewrite I2; apply firstn_app_exact|]. split; [apply (val_rep_shows _ _ _ no_stale); assumption|]. split; [exact I1|]. cbn [bb_new bb_data length Nat.add] in I6. split.
  - intros L. assert (K : forall r t, (t + N.of_nat (length (concat (somes r))) <= 4294967295)%N -> takes_bytes nl t r = takes nl r).
    { clear. induction r as [|[v|] r IH]; intros t L; [destruct nl; reflexivity| |]; rewrite takes_cons; cbn [takes_bytes is_some somes concat] in *; rewrite ?orb_true_r, ?orb_false_r.
      - rewrite app_length in L. destruct (N.leb_spec (t + N.of_nat (length v)) 4294967295); [|lia]. rewrite IH by lia. reflexivity.
      - rewrite IH by exact L. destruct nl; reflexivity. }
    rewrite <- (K rows 0%N L). change (N.of_nat (length (bb_data (bb_new nl)))) with 0%N in I1. rewrite <- I1.
    split; [|split; [exact I3|apply (val_rep_shows _ _ _ no_stale); assumption]]. rewrite I2.
    assert (length junk = 0).
    { apply (f_equal (@length N)) in I2. rewrite app_length, I6 in I2. enough (length (concat (somes rows)) = length (concat (somes (snd (append_anyway bb_append_at bb_append_null_at (bb_new nl) rows))))) by lia.
      change (N.of_nat (length (bb_data (bb_new nl)))) with 0%N in I1. rewrite I1, (K rows 0%N L). unfold takes. destruct nl; [reflexivity|]. clear. do 2 f_equal.
      induction rows as [|[v|] r IH]; cbn [filter is_some somes]; [reflexivity|rewrite IH; reflexivity|exact IH]. }
    destruct junk; [apply app_nil_r|discriminate].
  - intros L v. set (b := fst (append_anyway bb_append_at bb_append_null_at (bb_new nl) rows)) in *. clearbody b. unfold bb_append_at. cbn zeta. rewrite app_length, I6. change u32_max with 4294967295%N.
    destruct (N.leb_spec (N.of_nat (length (concat (somes rows)) + length v)) 4294967295); [lia|reflexivity].
Qed.
Print Assumptions C101_binary_partial.

Lemma bool_anyway nl rows : forall (b : bool_buf) acc,
  bm_rep (ob_values b) (somes acc) no_stale -> val_rep (ob_validity b) nl (validity_of acc) no_stale -> rows_allowed nl acc -> ob_len b = length acc ->
  let x := append_anyway ob_append_at ob_append_null_at b rows in
  snd x = takes nl rows
  /\ bm_rep (ob_values (fst x)) (somes (acc ++ snd x)) no_stale /\ val_rep (ob_validity (fst x)) nl (validity_of (acc ++ snd x)) no_stale
  /\ rows_allowed nl (acc ++ snd x) /\ ob_len (fst x) = length (acc ++ snd x).
Proof.
  induction rows as [|r rest IH]; intros b acc V W A L; cbn [append_anyway fst snd].
  { rewrite app_nil_r. split; [destruct nl; reflexivity|]. auto. }
  rewrite takes_cons. destruct r as [v|]; cbn [append_row is_some]; rewrite ?orb_true_r, ?orb_false_r.
  - destruct (validity_append_kept _ _ acc (Some v) true W eq_refl (allowed_some nl v)) as [E W'].
    destruct (bm_append_kept _ _ _ v V) as [E2 V']. unfold no_stale in V' at 1. rewrite orb_false_r in V'.
    assert (X : ob_append_at b v = (mk_boolb (fst (bm_append_at (ob_values b) v)) (fst (validity_append_at (ob_validity b) true)) (ob_len b + 1), Ret tt))
      by (unfold ob_append_at; cbn zeta; rewrite E2, E; reflexivity).
    rewrite X. cbn [fst snd].
    specialize (IH (mk_boolb (fst (bm_append_at (ob_values b) v)) (fst (validity_append_at (ob_validity b) true)) (ob_len b + 1)) (acc ++ [Some v])). cbn [ob_values ob_validity ob_len] in IH.
    rewrite somes_app in IH. assert (L' : ob_len b + 1 = length (acc ++ [Some v])) by (rewrite app_length, L; reflexivity).
    specialize (IH V' W' (allowed_snoc _ _ _ A (allowed_some nl v)) L'). cbn zeta in IH.
    rewrite <- !app_assoc in IH. destruct IH as (I1 & I2). split; [cbn [app]; f_equal; exact I1|]. exact I2.
  - pose proof (validity_null_kept _ _ acc W) as K. destruct nl.
    + destruct K as [E W'].
      assert (X : ob_append_null_at b = (mk_boolb (ob_values b) (fst (validity_append_null_at (ob_validity b))) (ob_len b + 1), Ret tt))
        by (unfold ob_append_null_at; cbn zeta; rewrite E; reflexivity).
      rewrite X. cbn [fst snd].
      specialize (IH (mk_boolb (ob_values b) (fst (validity_append_null_at (ob_validity b))) (ob_len b + 1)) (acc ++ [None])). cbn [ob_values ob_validity ob_len] in IH.
      rewrite somes_app in IH. cbn [somes] in IH. rewrite app_nil_r in IH. assert (L' : ob_len b + 1 = length (acc ++ [None])) by (rewrite app_length, L; reflexivity).
      specialize (IH V W' (or_introl eq_refl) L'). cbn zeta in IH.
      rewrite <- !app_assoc in IH. destruct IH as (I1 & I2). split; [cbn [app]; f_equal; exact I1|]. exact I2.
    + assert (X : ob_append_null_at b = (b, Panic PExplicit)) by (unfold ob_append_null_at; cbn zeta; rewrite K; destruct b; reflexivity).
      rewrite X. cbn [fst snd app]. apply IH; assumption.
Qed.

(** C101 for boolean buffers: the same as for fixed-width ones. *)
Theorem C101_bool_partial : forall nullable (rows : list (option bool)),
  let x := append_anyway ob_append_at ob_append_null_at (ob_new nullable) rows in
  reads_as (ob_values (fst x)) (somes (snd x)) /\ validity_shows (ob_validity (fst x)) nullable (snd x) /\ ob_len (fst x) = length (snd x)
  /\ snd x = takes nullable rows.
Proof.
  intros nl rows. destruct (bool_anyway nl rows (ob_new nl) [] rep_new (val_rep_new nl) (or_intror (Forall_nil _)) eq_refl) as (I1 & I2 & I3 & I4 & I5).
  cbn zeta in *. cbn [app] in *. split; [exact (rep_reads _ _ _ I2)|]. split; [apply (val_rep_shows _ _ _ no_stale); assumption|]. auto.
Qed.
Print Assumptions C101_bool_partial.

(** A null in the middle is refused by buffers without nulls and changes nothing. *)
Example C101_example :
  snd (append_anyway pb_append_at pb_append_null_at (pb_new false) [Some 1; None; Some 2]%N) = [Some 1; Some 2]%N
  /\ pb_values (fst (append_anyway pb_append_at pb_append_null_at (pb_new false) [Some 1; None; Some 2]%N)) = [1; 2]%N
  /\ bb_offsets (fst (append_anyway bb_append_at bb_append_null_at (bb_new false) [Some [7]; None; Some [8; 9]]%N)) = [0; 1; 3]%N
  /\ ob_len (fst (append_anyway ob_append_at ob_append_null_at (ob_new false) [Some true; None])) = 1.
Proof. vm_compute. repeat split. Qed.

(** * Appending from another buffer *)

(** The calls on a buffer, other buffers being anything. *)
Inductive pb_call (T : Type) := PAppend (v : T) | PNull | PFrom (buf : prim_buf T) (start end_ validity_pos : nat) | PClear.
Arguments PAppend {T}. Arguments PNull {T}. Arguments PFrom {T}. Arguments PClear {T}.
Inductive bb_call := BAppend (v : list N) | BNull | BFrom (buf : bin_buf) (start end_ validity_pos : nat) | BClear.

(** The buffer a call leaves behind. *)
Definition pb_after {T} (b : prim_buf T) (c : pb_call T) : prim_buf T :=
  match c with
  | PAppend v => fst (pb_append_at b v)
  | PNull => fst (pb_append_null_at b)
  | PFrom buf s e pos => fst (pb_append_from_at b buf s e pos)
  | PClear => pb_clear b
  end.
Definition bb_after (p : profile) (b : bin_buf) (c : bb_call) : bin_buf :=
  match c with
  | BAppend v => fst (bb_append_at b v)
  | BNull => fst (bb_append_null_at b)
  | BFrom buf s e pos => fst (bb_append_from_at p b buf s e pos)
  | BClear => bb_clear b
  end.

(** The validity shows the bits it showed and possibly more. *)
Definition shows_more (v v' : option bitmap) : Prop :=
  match v, v' with
  | Some bm, Some bm' => exists bits more, reads_as bm bits /\ reads_as bm' (bits ++ more)
  | None, None => True
  | _, _ => False
  end.

Definition whole_bits (v : option bitmap) : Prop :=
  match v with Some bm => exists bits st, bm_rep bm bits st | None => True end.

Definition grew (v v' : option bitmap) : Prop :=
  match v, v' with
  | Some bm, Some bm' => forall bits st, bm_rep bm bits st -> exists more, bm_rep bm' (bits ++ more) st
  | None, None => True
  | _, _ => False
  end.

Lemma grew_refl v : grew v v.
Proof. destruct v as [bm|]; cbn; [|exact I]. intros bits st H. exists []. rewrite app_nil_r. exact H. Qed.

Lemma grew_whole v v' : whole_bits v -> grew v v' -> whole_bits v'.
Proof. destruct v as [bm|], v' as [bm'|]; cbn; try tauto. intros (bits & st & H) G. destruct (G bits st H) as [more H']. eauto. Qed.

Lemma grew_shows v v' : whole_bits v -> grew v v' -> shows_more v v'.
Proof.
  destruct v as [bm|], v' as [bm'|]; cbn; try tauto. intros (bits & st & H) G. destruct (G bits st H) as [more H'].
  exists bits, more. split; [exact (rep_reads _ _ _ H)|exact (rep_reads _ _ _ H')].
Qed.

Lemma append_grew v x : grew v (fst (validity_append_at v x)).
Proof. destruct v as [bm|]; cbn; [|exact I]. intros bits st H. eexists. apply (bm_append_kept bm bits st x H). Qed.

Lemma null_grew v : grew v (fst (validity_append_null_at v)).
Proof. destruct v as [bm|]; cbn; [|exact I]. intros bits st H. eexists. apply (bm_append_kept bm bits st false H). Qed.

Lemma loop_grew src n : forall fuel dst items pos bits st, bm_rep dst bits st ->
  exists more, bm_rep (fst (bm_append_from_loop_at fuel dst src items pos n)) (bits ++ more) st.
Proof.
  induction fuel as [|fuel IH]; intros dst items pos bits st H; cbn [bm_append_from_loop_at]; [exists []; rewrite app_nil_r; exact H|].
  destruct (items <? n); [|exists []; rewrite app_nil_r; exact H].
  destruct (bm_is_set src pos) as [bit|k|]; cbn [pure fst]; [|exists []; rewrite app_nil_r; exact H..].
  destruct (bm_append_kept dst bits st bit H) as [E H']. rewrite E. cbn [pure].
  destruct (IH (fst (bm_append_at dst bit)) (items + b2n bit) (pos + 1) _ st H') as [more K]. rewrite <- app_assoc in K. eauto.
Qed.

Lemma from_grew dst src pos n : grew dst (fst (validity_append_from_at dst src pos n)).
Proof.
  destruct src as [src|], dst as [dst|]; cbn [validity_append_from_at fst grew]; try exact I; intros bits st H.
  - apply loop_grew. exact H.
  - exists []. rewrite app_nil_r. exact H.
Qed.

Lemma from_other dst src pos n : match dst, src with Some _, None | None, Some _ => True | _, _ => False end ->
  fst (validity_append_from_at dst src pos n) = dst.
Proof. destruct src, dst; cbn; tauto. Qed.

(** What the calls but [clear] do to any buffer. *)
Definition pb_grew {T} (b b' : prim_buf T) : Prop := (exists vs, pb_values b' = pb_values b ++ vs) /\ grew (pb_validity b) (pb_validity b').
Definition bb_grew (b b' : bin_buf) : Prop :=
  (exists d, bb_data b' = bb_data b ++ d) /\ (exists o, bb_offsets b' = bb_offsets b ++ o) /\ grew (bb_validity b) (bb_validity b').

Lemma pb_grew_refl {T} (b : prim_buf T) : pb_grew b b.
Proof. split; [exists []; symmetry; apply app_nil_r|apply grew_refl]. Qed.
Lemma bb_grew_refl b : bb_grew b b.
Proof. split; [exists []; symmetry; apply app_nil_r|]. split; [exists []; symmetry; apply app_nil_r|apply grew_refl]. Qed.

Lemma pb_from_grew {T} (b buf : prim_buf T) s e pos : pb_grew b (fst (pb_append_from_at b buf s e pos)).
Proof.
  unfold pb_append_from_at. destruct (slice (pb_values buf) s e) as [chunk|k|]; cbn [pure]; [|apply pb_grew_refl..]. cbn zeta.
  destruct (_ <? u32_max)%N; cbn [fst]; (split; [exists chunk; reflexivity|]); cbn [pb_validity]; [apply from_grew|apply grew_refl].
Qed.

Lemma pushed_grew p buf : forall count i last offsets, exists o, fst (bb_push_offsets_at p buf i count last offsets) = offsets ++ o.
Proof.
  induction count as [|count IH]; intros i last offsets; cbn [bb_push_offsets_at fst]; [exists []; symmetry; apply app_nil_r|].
  destruct (bb_item_len p buf i) as [len|k|]; cbn [pure fst]; [|exists []; symmetry; apply app_nil_r..].
  destruct (add32 p last len) as [l|k|]; cbn [pure fst]; [|exists []; symmetry; apply app_nil_r..].
  destruct (IH (S i) l (offsets ++ [l])) as [o E]. rewrite E, <- app_assoc. eauto.
Qed.

Lemma bb_from_grew p b buf s e pos : bb_grew b (fst (bb_append_from_at p b buf s e pos)).
Proof.
  unfold bb_append_from_at.
  destruct (idx (bb_offsets buf) s) as [so|k|]; cbn [pure]; [|apply bb_grew_refl..].
  destruct (idx (bb_offsets buf) e) as [eo|k|]; cbn [pure]; [|apply bb_grew_refl..].
  destruct (sub64 p _ _) as [cl|k|]; cbn [pure]; [|apply bb_grew_refl..]. cbn zeta.
  destruct (pushed_grew p buf (e - s) s (last (bb_offsets b) 0%N) (bb_offsets b)) as [o O].
  assert (X : bb_grew b (mk_bin (bb_data b) (fst (bb_push_offsets_at p buf s (e - s) (last (bb_offsets b) 0%N) (bb_offsets b))) (bb_validity b))).
  { split; [exists []; symmetry; apply app_nil_r|]. split; [exists o; exact O|apply grew_refl]. }
  destruct (snd (bb_push_offsets_at p buf s (e - s) (last (bb_offsets b) 0%N) (bb_offsets b))) as [[]|k|]; cbn [pure]; [|exact X..].
  destruct (slice (bb_data buf) _ _) as [chunk|k|]; cbn [pure]; [|exact X..].
  destruct (_ <? u32_max)%N; cbn [fst]; (split; [exists chunk; reflexivity|]); (split; [exists o; exact O|]); cbn [bb_validity]; [apply from_grew|apply grew_refl].
Qed.

Lemma pb_after_grew {T} (b : prim_buf T) c : c <> PClear -> pb_grew b (pb_after b c).
Proof.
  intros NC. destruct c as [v| |buf s e pos|]; cbn [pb_after]; [| |apply pb_from_grew|contradiction].
  - split; [exists [v]; reflexivity|apply append_grew].
  - split; [exists []; symmetry; apply app_nil_r|apply null_grew].
Qed.

Lemma bb_after_grew p b c : c <> BClear -> bb_grew b (bb_after p b c).
Proof.
  intros NC. destruct c as [v| |buf s e pos|]; cbn [bb_after]; [| |apply bb_from_grew|contradiction].
  - unfold bb_append_at. cbn zeta. destruct (_ <=? u32_max)%N; cbn [fst]; (split; [exists v; reflexivity|]).
    + split; [eexists; reflexivity|apply append_grew].
    + split; [exists []; symmetry; apply app_nil_r|apply grew_refl].
  - split; [exists []; symmetry; apply app_nil_r|]. split; [exists []; symmetry; apply app_nil_r|apply null_grew].
Qed.

Lemma clear_whole v : whole_bits v -> whole_bits (option_map bm_clear v).
Proof. destruct v as [bm|]; cbn; [|tauto]. intros (bits & st & H). do 2 eexists. apply (clear_rep _ _ _ H). Qed.

Lemma new_whole nl : whole_bits (new_validity nl).
Proof. destruct nl; cbn; [do 2 eexists; exact rep_new|exact I]. Qed.

Lemma pb_reached_whole {T} (calls : list (pb_call T)) : forall b, whole_bits (pb_validity b) -> whole_bits (pb_validity (fold_left pb_after calls b)).
Proof.
  induction calls as [|c calls IH]; intros b H; cbn [fold_left]; [exact H|]. apply IH.
  destruct c as [v| |buf s e pos|]; [apply (grew_whole _ _ H); apply pb_after_grew; discriminate..|]. apply clear_whole. exact H.
Qed.

Lemma bb_reached_whole p calls : forall b, whole_bits (bb_validity b) -> whole_bits (bb_validity (fold_left (bb_after p) calls b)).
Proof.
  induction calls as [|c calls IH]; intros b H; cbn [fold_left]; [exact H|]. apply IH.
  destruct c as [v| |buf s e pos|]; [apply (grew_whole _ _ H); apply (bb_after_grew p b); discriminate..|]. apply clear_whole. exact H.
Qed.

Lemma somes_cut (all : list (list N)) s e : s <= e <= length all ->
  exists a c, all = a ++ firstn (e - s) (skipn s all) ++ c /\ length a = s.
Proof.
  intros R. exists (firstn s all), (skipn (e - s) (skipn s all)). split; [|rewrite firstn_length; lia].
  rewrite firstn_skipn, firstn_skipn. reflexivity.
Qed.

Lemma from_mismatch p b buf nl rows s e pos : bb_holds buf nl rows -> nl <> bb_is_nullable b -> s <= e <= length (somes rows) ->
  let items := firstn (e - s) (skipn s (somes rows)) in
  (N.of_nat (length (concat (somes rows))) <= u32_max)%N ->
  (last (bb_offsets b) 0 + N.of_nat (length (concat items)) < 2 ^ 32)%N ->
  bb_append_from_at p b buf s e pos =
    (mk_bin (bb_data b ++ concat items) (bb_offsets b ++ tl (running_offsets (last (bb_offsets b) 0%N) items)) (bb_validity b),
     Panic (if bb_is_nullable b then PAssert else if (N.of_nat (length (bb_data b) + length (concat items)) <? u32_max)%N then PExpect else PAssert)).
Proof.
  intros H NE R items L1 L3.
  destruct (bb_holds_counts _ _ _ H) as (_ & _ & HN & _).
  destruct H as (HD & HO & HS). unfold bb_append_from_at, idx. rewrite HO, !running_nth by lia. cbn [pure].
  unfold sub64, usub. destruct (N.leb_spec (N.of_nat s) (N.of_nat e)) as [_|]; [|lia]. cbn [pure]. cbn zeta.
  pose proof (push_offsets_ok p buf (somes rows) (e - s) s (last (bb_offsets b) 0%N) (bb_offsets b) HO ltac:(lia) L1 L3) as P.
  rewrite bb_push_offsets_same in P. fold items in P. unfold uncaught in P.
  destruct (bb_push_offsets_at p buf s (e - s) (last (bb_offsets b) 0%N) (bb_offsets b)) as [o [[]|k|]]; cbn [fst snd] in P; try discriminate P.
  injection P as ->. cbn [fst snd pure].
  destruct (somes_cut (somes rows) s e R) as (a & c & EQ & LA). fold items in EQ.
  assert (LI : length items = e - s) by (unfold items; rewrite firstn_length, skipn_length; lia).
  assert (F1 : firstn s (somes rows) = a) by (rewrite EQ; apply firstn_app_len; auto).
  assert (F2 : firstn e (somes rows) = a ++ items) by (rewrite EQ, app_assoc; apply firstn_app_len; rewrite app_length; lia).
  rewrite F1, F2, !N.add_0_l, !Nat2N.id, HD, EQ, !concat_app, app_length.
  rewrite slice_ok by (rewrite ?app_length; lia). cbn [pure].
  replace (length (concat a) + length (concat items) - length (concat a)) with (length (concat items)) by lia.
  rewrite skipn_app_len, firstn_app_len by reflexivity. rewrite app_length. unfold snoc_offsets.
  unfold bb_is_nullable in *.
  destruct (bb_validity b) as [v|] eqn:EV, (bb_validity buf) as [v'|] eqn:EV'; cbn [validity_append_from_at fst snd]; try (exfalso; congruence);
    destruct (_ <? u32_max)%N; reflexivity.
Qed.

(** C101, what always holds: no call but [clear], however it ends, changes or
    removes anything of what a buffer shows.  [append_from] of a range that is
    not in the other buffer changes nothing at all; if one buffer has nulls and
    the other has not, it panics and leaves the values (and offsets) appended
    and the validity as it was. *)
Theorem C101_keeps_primitive_partial : forall (T : Type) nullable (before : list (pb_call T)) c,
  let b := fold_left pb_after before (pb_new nullable) in
  (c <> PClear -> (exists vs, pb_values (pb_after b c) = pb_values b ++ vs) /\ shows_more (pb_validity b) (pb_validity (pb_after b c)))
  /\ forall buf s e pos, c = PFrom buf s e pos ->
     (~ s <= e <= length (pb_values buf) -> pb_append_from_at b buf s e pos = (b, Panic PIndex))
     /\ (s <= e <= length (pb_values buf) -> pb_is_nullable b <> pb_is_nullable buf ->
         (exists k, snd (pb_append_from_at b buf s e pos) = Panic k)
         /\ pb_after b c = mk_prim (pb_values b ++ firstn (e - s) (skipn s (pb_values buf))) (pb_validity b)).
Proof.
  intros T nl before c b. split.
  - intros NC. destruct (pb_after_grew b c NC) as [V G]. split; [exact V|]. apply grew_shows; [|exact G]. apply pb_reached_whole. apply new_whole.
  - intros buf s e pos ->. cbn [pb_after]. unfold pb_append_from_at, slice. split.
    + intros NR. destruct (Nat.leb_spec s e), (Nat.leb_spec e (length (pb_values buf))); cbn [andb pure]; try reflexivity. lia.
    + intros R NE. destruct (Nat.leb_spec s e); [|lia]. destruct (Nat.leb_spec e (length (pb_values buf))); [|lia]. cbn [andb pure]. cbn zeta.
      unfold pb_is_nullable in NE. destruct (_ <? u32_max)%N; cbn [fst snd]; [|eauto].
      destruct (pb_validity b), (pb_validity buf); cbn [validity_append_from_at fst snd]; try (exfalso; apply NE; reflexivity); eauto.
Qed.
Print Assumptions C101_keeps_primitive_partial.

Theorem C101_keeps_binary_partial : forall p nullable (before : list bb_call) c,
  let b := fold_left (bb_after p) before (bb_new nullable) in
  (c <> BClear -> (exists d, bb_data (bb_after p b c) = bb_data b ++ d) /\ (exists o, bb_offsets (bb_after p b c) = bb_offsets b ++ o)
     /\ shows_more (bb_validity b) (bb_validity (bb_after p b c)))
  /\ (forall buf s e pos, c = BFrom buf s e pos -> length (bb_offsets buf) <= s \/ length (bb_offsets buf) <= e ->
     bb_append_from_at p b buf s e pos = (b, Panic PIndex))
  /\ forall buf nl rows s e pos, c = BFrom buf s e pos -> bb_holds buf nl rows -> nl <> bb_is_nullable b -> s <= e <= length (somes rows) ->
     let items := firstn (e - s) (skipn s (somes rows)) in
     (N.of_nat (length (concat (somes rows))) <= u32_max)%N ->
     (last (bb_offsets b) 0 + N.of_nat (length (concat items)) < 2 ^ 32)%N ->
     (exists k, snd (bb_append_from_at p b buf s e pos) = Panic k)
     /\ bb_after p b c = mk_bin (bb_data b ++ concat items) (bb_offsets b ++ tl (running_offsets (last (bb_offsets b) 0%N) items)) (bb_validity b).
Proof.
  intros p nl before c b. split; [|split].
  - intros NC. destruct (bb_after_grew p b c NC) as (D & O & G). split; [exact D|]. split; [exact O|]. apply grew_shows; [|exact G]. apply bb_reached_whole. apply new_whole.
  - intros buf s e pos -> H. unfold bb_append_from_at, idx.
    destruct (nth_error (bb_offsets buf) s) as [so|] eqn:E1; cbn [pure]; [|reflexivity].
    destruct (nth_error (bb_offsets buf) e) as [eo|] eqn:E2; cbn [pure]; [|reflexivity].
    assert (s < length (bb_offsets buf)) by (apply nth_error_Some; rewrite E1; discriminate).
    assert (e < length (bb_offsets buf)) by (apply nth_error_Some; rewrite E2; discriminate). lia.
  - intros buf nl' rows s e pos -> H NE R items L1 L3. cbn [bb_after].
    rewrite (from_mismatch p b buf nl' rows s e pos H NE R L1 L3). cbn [fst snd]. split; [eauto|reflexivity].
Qed.
Print Assumptions C101_keeps_binary_partial.

Definition values_of {T} (nl : bool) (rows : list (option T)) : prim_buf T := fst (append_anyway pb_append_at pb_append_null_at (pb_new nl) rows).
Definition items_of (nl : bool) (rows : list (option (list N))) : bin_buf := fst (append_anyway bb_append_at bb_append_null_at (bb_new nl) rows).

Definition plain_one := values_of false [Some 1%N].
Definition plain_two := values_of false [Some 2%N].
Definition null_one := values_of true [Some 1%N].
Definition null_two := values_of true [Some 2%N].
Definition plain_item := items_of false [Some [1%N]].
Definition null_item := items_of true [Some [2%N]].

Example C101_keeps_example :
  pb_append_from_at plain_one plain_two 0 2 0 = (plain_one, Panic PIndex)
  /\ snd (pb_append_from_at plain_one null_two 0 1 0) = Panic PExpect
  /\ bb_append_from_at Debug plain_item (items_of false [Some [2%N]]) 0 2 0 = (plain_item, Panic PIndex)
  /\ bb_append_from_at Debug plain_item null_item 0 1 0 = (mk_bin [1; 2] [0; 1; 2] None, Panic PExpect)%N.
Proof. vm_compute. repeat split. Qed.

(** C101 does not hold for [append_from]: a call that panics leaves rows behind.
    A buffer without nulls then shows a value that was never accepted.  In a
    buffer with nulls the value stands where the next accepted one belongs, so
    the rows accepted later read as others; the same with binary buffers. *)
Theorem C101_refuted :
  ~ (forall (b buf : prim_buf N) rows s e pos, pb_holds b false rows ->
       match snd (pb_append_from_at b buf s e pos) with Panic _ => pb_holds (fst (pb_append_from_at b buf s e pos)) false rows | _ => True end)
  /\ ~ (forall (b buf : prim_buf N) rows s e pos v, pb_holds b true rows ->
       match snd (pb_append_from_at b buf s e pos), snd (pb_append_at (fst (pb_append_from_at b buf s e pos)) v) with
       | Panic _, Ret _ => pb_holds (fst (pb_append_at (fst (pb_append_from_at b buf s e pos)) v)) true (rows ++ [Some v])
       | _, _ => True end)
  /\ ~ (forall p (b buf : bin_buf) rows s e pos, bb_holds b false rows ->
       match snd (bb_append_from_at p b buf s e pos) with Panic _ => bb_holds (fst (bb_append_from_at p b buf s e pos)) false rows | _ => True end).
Proof.
  split; [|split].
  - intros H. specialize (H plain_one null_two [Some 1%N] 0 1 0).
    destruct (C101_primitive_partial N false [Some 1]%N) as [K E]. cbn zeta in *. rewrite E in K. specialize (H K).
    assert (X : pb_values (fst (pb_append_from_at plain_one null_two 0 1 0)) = [1; 2]%N) by (vm_compute; reflexivity).
    assert (Y : snd (pb_append_from_at plain_one null_two 0 1 0) = Panic PExpect) by (vm_compute; reflexivity).
    rewrite Y in H. destruct H as [H _]. rewrite X in H. discriminate H.
  - intros H. specialize (H null_one plain_two [Some 1%N] 0 1 0 3%N).
    destruct (C101_primitive_partial N true [Some 1]%N) as [K E]. cbn zeta in *. rewrite E in K. specialize (H K).
    set (b1 := pb_append_from_at null_one plain_two 0 1 0) in H.
    assert (X : pb_values (fst (pb_append_at (fst b1) 3%N)) = [1; 2; 3]%N) by (vm_compute; reflexivity).
    assert (Y : snd b1 = Panic PAssert) by (vm_compute; reflexivity).
    assert (Z : snd (pb_append_at (fst b1) 3%N) = Ret tt) by (vm_compute; reflexivity).
    rewrite Y, Z in H. destruct H as [H _]. rewrite X in H. discriminate H.
  - intros H. specialize (H Debug plain_item null_item [Some [1%N]] 0 1 0).
    destruct (C101_binary_partial false [Some [1]]%N) as (_ & _ & _ & _ & K & _). specialize (K ltac:(cbn; lia)). specialize (H K).
    assert (X : bb_data (fst (bb_append_from_at Debug plain_item null_item 0 1 0)) = [1; 2]%N) by (vm_compute; reflexivity).
    assert (Y : snd (bb_append_from_at Debug plain_item null_item 0 1 0) = Panic PExpect) by (vm_compute; reflexivity).
    rewrite Y in H. destruct H as [H _]. rewrite X in H. discriminate H.
Qed.
Print Assumptions C101_refuted.
