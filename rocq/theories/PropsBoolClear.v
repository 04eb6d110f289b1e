(** Property C14 for boolean buffers, exactly (indexing_buffer.rs:336-407). *)
From Verif Require Import Base BaseProofs Spec Buffers Observe BuffersProofs PropsBuffers.
Open Scope nat_scope.

(** The two bitmaps of a boolean buffer are filled independently. *)
Lemma ob_rows_parts : forall rows v v' bm bm' n,
  bm_appends v (somes rows) = Ret v' -> bm_appends bm (validity_of rows) = Ret bm' ->
  ob_append_rows (mk_boolb v (Some bm) n) rows = Ret (mk_boolb v' (Some bm') (n + length rows)).
Proof.
  induction rows as [|[x|] rows IH]; intros v v' bm bm' n E1 E2; cbn [somes validity_of map is_some bm_appends ob_append_rows length] in *.
  - injection E1 as <-. injection E2 as <-. rewrite Nat.add_0_r. reflexivity.
  - unfold ob_append. cbn [ob_values ob_validity ob_len validity_append].
    destruct (bm_append v x); [|discriminate E1|discriminate E1]. destruct (bm_append bm true); [|discriminate E2|discriminate E2].
    rewrite !bind_ret in *. rewrite (IH _ _ _ _ _ E1 E2). do 2 f_equal. lia.
  - unfold ob_append_null. cbn [ob_values ob_validity ob_len validity_append_null].
    destruct (bm_append bm false); [|discriminate E2|discriminate E2].
    rewrite !bind_ret in *. rewrite (IH _ _ _ _ _ E1 E2). do 2 f_equal. lia.
Qed.

Lemma ob_rows_plain : forall rows v v' n, Forall (fun r => is_some r = true) rows ->
  bm_appends v (somes rows) = Ret v' ->
  ob_append_rows (mk_boolb v None n) rows = Ret (mk_boolb v' None (n + length rows)).
Proof.
  induction rows as [|[x|] rows IH]; intros v v' n A E1; cbn [somes bm_appends ob_append_rows length] in *.
  - injection E1 as <-. rewrite Nat.add_0_r. reflexivity.
  - unfold ob_append. cbn [ob_values ob_validity ob_len validity_append].
    destruct (bm_append v x); [|discriminate E1|discriminate E1].
    rewrite !bind_ret in *. rewrite (IH _ _ _ (Forall_inv_tail A) E1). do 2 f_equal. lia.
  - pose proof (Forall_inv A) as Q. discriminate Q.
Qed.

Lemma ob_rounds_parts : forall rounds v v' bm bm',
  bm_rounds v (map somes rounds) = Ret v' -> bm_rounds bm (map validity_of rounds) = Ret bm' ->
  ob_rounds (mk_boolb v (Some bm) 0) rounds = Ret (mk_boolb v' (Some bm') 0).
Proof.
  induction rounds as [|r rounds IH]; intros v v' bm bm' E1 E2; cbn [map bm_rounds ob_rounds] in *.
  - injection E1 as <-. injection E2 as <-. reflexivity.
  - destruct (bm_appends v (somes r)) eqn:A1; [|discriminate E1|discriminate E1].
    destruct (bm_appends bm (validity_of r)) eqn:A2; [|discriminate E2|discriminate E2].
    rewrite (ob_rows_parts _ _ _ _ _ _ A1 A2). rewrite !bind_ret in *. cbn [ob_clear ob_values ob_validity option_map]. apply IH; assumption.
Qed.

Lemma ob_rounds_plain : forall rounds v v', Forall (Forall (fun r => is_some r = true)) rounds ->
  bm_rounds v (map somes rounds) = Ret v' ->
  ob_rounds (mk_boolb v None 0) rounds = Ret (mk_boolb v' None 0).
Proof.
  induction rounds as [|r rounds IH]; intros v v' A E1; cbn [map bm_rounds ob_rounds] in *.
  - injection E1 as <-. reflexivity.
  - destruct (bm_appends v (somes r)) eqn:A1; [|discriminate E1|discriminate E1].
    rewrite (ob_rows_plain _ _ _ _ (Forall_inv A) A1). rewrite !bind_ret in *. cbn [ob_clear ob_values ob_validity option_map].
    apply IH; [exact (Forall_inv_tail A)|assumption].
Qed.

(** Some earlier round had the value true as its [i]-th value (nulls not
    counted). *)
Definition stale_true (rounds : list (list (option bool))) (i : nat) : bool :=
  (i <? 8 * 1024) && existsb (fun r => nth i (somes r) false) rounds.

(** C14, exactly, for boolean buffers after any number of clears: the number of
    rows, of values and has-nulls are right.  A value reads as true where an
    earlier round had a true value at the same place among its values, and a null
    as non-null where an earlier round had a non-null row at the same place among
    its rows. *)
Theorem C14_bool_clear_exact : forall nullable rounds rows,
  Forall (rows_allowed nullable) rounds -> rows_allowed nullable rows ->
  exists b b', ob_rounds (ob_new nullable) rounds = Ret b /\ ob_append_rows b rows = Ret b'
    /\ ob_len b' = length rows /\ bm_len (ob_values b') = length (somes rows)
    /\ ob_is_nullable b' = nullable
    /\ ob_has_nulls b' = negb (forallb is_some rows)
    /\ (forall i, i < length (somes rows) ->
          bm_is_set (ob_values b') i = Ret (nth i (somes rows) false || stale_true rounds i))
    /\ (nullable = true -> exists bm, ob_validity b' = Some bm /\ bm_len bm = length rows
          /\ forall i, i < length rows -> bm_is_set bm i = Ret (nth i (validity_of rows) false || stale_row rounds i)).
Proof.
  intros nl rounds rows AR A.
  assert (EX : forall (f : list (option bool) -> list bool) i, existsb (fun r => nth i r false) (map f rounds) = existsb (fun r => nth i (f r) false) rounds).
  { intros f i. clear. induction rounds as [|r rounds IH]; [reflexivity|]. cbn [map existsb]. rewrite IH. reflexivity. }
  assert (HN : forall v : bitmap, bm_len v = length (somes rows) -> negb (bm_len v =? length rows) = negb (forallb is_some rows)).
  { intros v ->. f_equal. destruct (forallb is_some rows) eqn:EB.
    - rewrite forallb_forall in EB. apply Nat.eqb_eq. apply all_some_length. apply Forall_forall. exact EB.
    - apply Nat.eqb_neq. intros Z. apply not_all_some_length in Z. rewrite Forall_forall in Z. apply forallb_forall in Z. congruence. }
  destruct (C08_clear_exact (map somes rounds) (somes rows)) as (v & v' & V1 & V2 & _ & VL & VS & _).
  destruct nl.
  - destruct (C08_clear_exact (map validity_of rounds) (validity_of rows)) as (m & m' & M1 & M2 & _ & ML & MS & _).
    unfold validity_of in ML, MS. rewrite map_length in ML, MS. fold (@validity_of bool) in MS.
    exists (mk_boolb v (Some m) 0), (mk_boolb v' (Some m') (length rows)).
    split; [apply ob_rounds_parts; assumption|]. split; [rewrite (ob_rows_parts _ _ _ _ _ _ V2 M2); reflexivity|].
    cbn [ob_len ob_values ob_validity]. split; [reflexivity|]. split; [exact VL|]. split; [reflexivity|]. split; [apply HN; exact VL|]. split.
    + intros i Hi. rewrite VS by exact Hi. unfold stale_true. rewrite EX. reflexivity.
    + intros _. exists m'. split; [reflexivity|]. split; [exact ML|]. intros i Hi. rewrite MS by exact Hi. unfold stale_row. rewrite EX. reflexivity.
  - assert (S0 : forall r, rows_allowed (T:=bool) false r -> Forall (fun x => is_some x = true) r) by (intros r [Q|Q]; [discriminate Q|exact Q]).
    exists (mk_boolb v None 0), (mk_boolb v' None (length rows)).
    split; [apply ob_rounds_plain; [eapply Forall_impl; [exact S0|exact AR]|exact V1]|].
    split; [rewrite (ob_rows_plain _ _ _ _ (S0 _ A) V2); reflexivity|].
    cbn [ob_len ob_values ob_validity]. split; [reflexivity|]. split; [exact VL|]. split; [reflexivity|]. split; [apply HN; exact VL|]. split; [|discriminate].
    intros i Hi. rewrite VS by exact Hi. unfold stale_true. rewrite EX. reflexivity.
Qed.
Print Assumptions C14_bool_clear_exact.

(** The third value of the first round (its fourth row) is true and shines
    through the third value of the last round; the first row of the last round, a
    null, reads as non-null. *)
Example C14_bool_witness :
  match ob_rounds (ob_new true) [[Some false; None; Some false; Some true]; [None]] with
  | Ret b => match ob_append_rows b [None; None; Some false; Some true; Some false] with
             | Ret b' => map (bm_is_set (ob_values b')) [0; 1; 2] = [Ret false; Ret true; Ret true]
                         /\ option_map (fun bm => map (bm_is_set bm) [0; 1; 2; 3; 4]) (ob_validity b') = Some [Ret true; Ret false; Ret true; Ret true; Ret true]
                         /\ ob_has_nulls b' = true
             | _ => False end
  | _ => False end.
Proof. vm_compute. auto. Qed.

(** C14 for the has-nulls answer of nullable fixed-width and binary buffers: right
    after any number of clears, in every build. *)
Theorem C14_has_nulls :
  (forall (T : Type) (rounds : list (list (option T))) rows b b' p,
     pb_rounds (pb_new true) rounds = Ret b -> pb_append_rows b rows = Ret b' ->
     pb_has_nulls p b' = Ret (negb (forallb is_some rows)))
  /\ (forall (rounds : list (list (option (list N)))) rows b b' p,
     Forall (fun r => N.of_nat (length (concat (somes r))) <= 4294967295)%N (rows :: rounds) ->
     bb_rounds (bb_new true) rounds = Ret b -> bb_append_rows b rows = Ret b' ->
     bb_has_nulls p b' = Ret (negb (forallb is_some rows))).
Proof.
  assert (LE : forall (T : Type) (rows : list (option T)), length (somes rows) <= length rows
                 /\ (length rows =? length (somes rows)) = forallb is_some rows).
  { intros T rows. induction rows as [|[v|] rows [IH IE]]; cbn [somes length forallb is_some andb]; [split; [lia|reflexivity]| |].
    - split; [lia|]. exact IE.
    - split; [lia|]. apply Nat.eqb_neq. lia. }
  assert (HN : forall (T : Type) p bm (rows : list (option T)) n, bm_len bm = length rows -> n = length (somes rows) ->
                 validity_has_nulls p (Some bm) n = Ret (negb (forallb is_some rows))).
  { intros T p bm rows n HL ->. destruct (LE T rows) as [L E]. unfold validity_has_nulls, sub64, usub. rewrite HL.
    destruct (N.leb_spec (N.of_nat (length (somes rows))) (N.of_nat (length rows))) as [_|Z]; [|lia]. rewrite bind_ret. do 2 f_equal.
    rewrite <- E. destruct (Nat.eqb_spec (length rows) (length (somes rows))) as [Q|Q].
    - apply N.eqb_eq. lia.
    - apply N.eqb_neq. lia. }
  split.
  - intros T rounds rows b b' p R A. destruct (proj1 C14_buffer_clear_exact T rounds rows) as (c & c' & bm & R' & A' & V & NV & L & VB & _).
    rewrite R in R'. injection R' as <-. rewrite A in A'. injection A' as <-.
    unfold pb_has_nulls. rewrite VB. apply HN; [|exact L]. unfold pb_num_values in NV. rewrite VB in NV. exact NV.
  - intros rounds rows b b' p FB R A. destruct (proj1 (proj2 (proj2 C14_buffer_clear_exact)) rounds rows FB) as (c & c' & bm & R' & A' & D & O & NV & VB & _).
    rewrite R in R'. injection R' as <-. rewrite A in A'. injection A' as <-.
    unfold bb_has_nulls. rewrite VB. apply HN.
    + unfold bb_num_values in NV. rewrite VB in NV. exact NV.
    + unfold bb_len. rewrite O, running_length. lia.
Qed.
Print Assumptions C14_has_nulls.

(** Concrete: the null of the last round reads as a value, but is still counted. *)
Example C14_has_nulls_witness :
  match bb_rounds (bb_new true) [[Some [1]; Some [2; 3]]]%N with
  | Ret b => match bb_append_rows b [None; Some [4]]%N, bb_append_rows b [Some [5]]%N with
             | Ret b1, Ret b2 => bb_has_nulls Debug b1 = Ret true /\ bb_has_nulls Debug b2 = Ret false
                 /\ option_map (fun bm => bm_is_set bm 0) (bb_validity b1) = Some (Ret true)
             | _, _ => False end
  | _ => False end.
Proof. vm_compute. repeat split. Qed.

(** C15 for binary buffers: rows are never copied between a nullable buffer and
    one that is not, whatever the range and the build. *)
Theorem C15_binary_mismatch : forall p (dst src : bin_buf) start end_ pos,
  bb_is_nullable dst <> bb_is_nullable src -> is_panic (bb_append_from p dst src start end_ pos).
Proof.
  intros p dst src start end_ pos H.
  assert (US : forall lim a b, (exists x, usub lim p a b = Ret x) \/ is_panic (usub lim p a b)).
  { intros lim a b. unfold usub. repeat match goal with |- context [if ?c then _ else _] => destruct c end; eauto; right; eexists; reflexivity. }
  assert (UA : forall lim a b, (exists x, uadd lim p a b = Ret x) \/ is_panic (uadd lim p a b)).
  { intros lim a b. unfold uadd. repeat match goal with |- context [if ?c then _ else _] => destruct c end; eauto; right; eexists; reflexivity. }
  assert (IX : forall (l : list N) i, (exists x, idx l i = Ret x) \/ is_panic (idx l i)).
  { intros l i. unfold idx. destruct (nth_error l i); eauto. right; eexists; reflexivity. }
  assert (PO : forall count i last offsets, (exists x, bb_push_offsets p src i count last offsets = Ret x) \/ is_panic (bb_push_offsets p src i count last offsets)).
  { induction count as [|count IH]; intros i last offsets; cbn [bb_push_offsets]; [eauto|]. unfold bb_item_len, sub32, add32.
    destruct (IX (bb_offsets src) (i + 1)) as [(hi & ->)|(k & ->)]; [|right; eexists; reflexivity]. rewrite bind_ret.
    destruct (IX (bb_offsets src) i) as [(lo & ->)|(k & ->)]; [|right; eexists; reflexivity]. rewrite bind_ret.
    destruct (US u32_lim hi lo) as [(len & ->)|(k & ->)]; [|right; eexists; reflexivity]. rewrite bind_ret.
    destruct (UA u32_lim last len) as [(s & ->)|(k & ->)]; [|right; eexists; reflexivity]. rewrite bind_ret. apply IH. }
  unfold bb_append_from, sub64.
  destruct (IX (bb_offsets src) start) as [(so & ->)|(k & ->)]; [|eexists; reflexivity]. rewrite bind_ret.
  destruct (IX (bb_offsets src) end_) as [(eo & ->)|(k & ->)]; [|eexists; reflexivity]. rewrite bind_ret.
  destruct (US u64_lim (N.of_nat end_) (N.of_nat start)) as [(cl & ->)|(k & ->)]; [|eexists; reflexivity]. rewrite bind_ret.
  destruct (PO (end_ - start) start (last (bb_offsets dst) 0%N) (bb_offsets dst)) as [(os & ->)|(k & ->)]; [|eexists; reflexivity]. rewrite bind_ret.
  unfold slice. destruct (_ && _); [|eexists; reflexivity]. rewrite bind_ret. destruct (_ <? _)%N; [|eexists; reflexivity].
  unfold bb_is_nullable in H. destruct (bb_validity dst), (bb_validity src); try congruence; eexists; reflexivity.
Qed.
Print Assumptions C15_binary_mismatch.

Example C15_mismatch_witness :
  match bb_append_rows (bb_new false) [Some [1]; Some [2; 3]]%N with
  | Ret src => bb_is_nullable (bb_new true) <> bb_is_nullable src /\ bb_append_from Release (bb_new true) src 0 2 0 = Panic PAssert
  | _ => False end.
Proof. vm_compute. split; [discriminate|reflexivity]. Qed.

Lemma bb_rows_app (l1 l2 : list (option (list N))) : forall b, bb_append_rows b (l1 ++ l2) = (let* b1 := bb_append_rows b l1 in bb_append_rows b1 l2).
Proof. induction l1 as [|[v|] l1 IH]; intros b; cbn [app bb_append_rows]; [reflexivity| |]; rewrite bind_assoc; apply bind_ext; intros b1; apply IH. Qed.

Lemma ob_rows_app (l1 l2 : list (option bool)) : forall b, ob_append_rows b (l1 ++ l2) = (let* b1 := ob_append_rows b l1 in ob_append_rows b1 l2).
Proof. induction l1 as [|[v|] l1 IH]; intros b; cbn [app ob_append_rows]; [reflexivity| |]; rewrite bind_assoc; apply bind_ext; intros b1; apply IH. Qed.

Lemma all_some {T} (vs : list T) : Forall (fun r => is_some r = true) (map Some vs) /\ somes (map Some vs) = vs.
Proof. induction vs as [|v vs [F E]]; cbn [map somes]; split; [constructor|reflexivity|constructor; [reflexivity|exact F]|f_equal; exact E]. Qed.

(** C12 and C13 for nulls in buffers that were made without them: the first one
    panics (unless the data before it has already done so), whatever comes after. *)
Theorem C12_null_rejected : forall (vs : list (list N)) rest,
  bb_append_rows (bb_new false) (map Some vs ++ None :: rest)
  = if (N.of_nat (length (concat vs)) <=? 4294967295)%N then Panic PExplicit else Panic PExpect.
Proof.
  intros vs rest. rewrite bb_rows_app. destruct (all_some vs) as [F E]. destruct (C12_binary_buffer false (map Some vs) (or_intror F)) as [OK BAD].
  rewrite E in OK, BAD. destruct (N.leb_spec (N.of_nat (length (concat vs))) 4294967295) as [L|L].
  - destruct (OK L) as (b & R & _ & _ & _ & _ & _ & _ & _ & _ & NL & _). rewrite R. cbn [bind bb_append_rows].
    unfold bb_append_null. unfold bb_is_nullable in NL. destruct (bb_validity b); [discriminate NL|]. reflexivity.
  - rewrite (BAD L). reflexivity.
Qed.
Print Assumptions C12_null_rejected.

Theorem C13_null_rejected : forall (vs : list bool) rest, ob_append_rows (ob_new false) (map Some vs ++ None :: rest) = Panic PExplicit.
Proof.
  intros vs rest. rewrite ob_rows_app. destruct (all_some vs) as [F E]. destruct (C13_bool_buffer false (map Some vs) (or_intror F)) as (b & R & _ & _ & _ & NL & _).
  rewrite R. cbn [bind ob_append_rows]. unfold ob_append_null. unfold ob_is_nullable in NL. destruct (ob_validity b); [discriminate NL|]. reflexivity.
Qed.
Print Assumptions C13_null_rejected.

(** C13 for the validity that a boolean buffer gives away: the one of its rows, or
    a panic if the buffer was made without it. *)
Theorem C13_validity : forall nullable (rows : list (option bool)) b,
  ob_append_rows (ob_new nullable) rows = Ret b ->
  match ob_get_validity b with
  | Ret bm => nullable = true /\ reads_as bm (map is_some rows)
  | Panic k => nullable = false /\ k = PExpect
  | NoFuel => False
  end.
Proof.
  intros nl rows b R.
  assert (A : rows_allowed nl rows).
  { destruct nl; [left; reflexivity|]. right. destruct (forallb is_some rows) eqn:EB; [apply Forall_forall, forallb_forall; exact EB|]. exfalso.
    assert (X : exists vs rest, rows = map Some vs ++ None :: rest).
    { clear R. induction rows as [|[v|] rows IH]; [discriminate EB| |exists [], rows; reflexivity]. cbn [forallb is_some andb] in EB. destruct (IH EB) as (vs & rest & ->).
      exists (v :: vs), rest. reflexivity. }
    destruct X as (vs & rest & ->). rewrite C13_null_rejected in R. discriminate R. }
  destruct (C13_bool_buffer nl rows A) as (b' & R' & _ & V & _). rewrite R in R'. injection R' as <-. unfold ob_get_validity, validity_shows in *.
  destruct (ob_validity b); [exact V|]. split; [exact (proj1 V)|reflexivity].
Qed.
Print Assumptions C13_validity.

Example C13_null_witness :
  ob_append_rows (ob_new false) [Some true; None; Some false] = Panic PExplicit
  /\ bb_append_rows (bb_new false) [Some [1; 2]; Some []; None; None]%N = Panic PExplicit
  /\ match ob_append_rows (ob_new true) [Some true; None; Some false] with
     | Ret b => match ob_get_validity b with Ret bm => map (bm_is_set bm) [0; 1; 2; 3] = [Ret true; Ret false; Ret true; Panic PAssert] | _ => False end
     | _ => False end
  /\ match ob_append_rows (ob_new false) [Some true] with Ret b => ob_get_validity b = Panic PExpect | _ => False end.
Proof. vm_compute. auto. Qed.

(** C15 for too much data: a copy that would leave 2^32-1 values or bytes, or more,
    always panics. *)
Theorem C15_too_large :
  (forall (T : Type) (dst src : prim_buf T) nullable before R after pos,
     pb_holds src nullable (before ++ R ++ after) ->
     (4294967295 <= N.of_nat (pb_len dst + length (somes R)))%N ->
     pb_append_from dst src (length (somes before)) (length (somes before) + length (somes R)) pos = Panic PAssert)
  /\ (forall p dst src nullable before R after pos,
     bb_holds src nullable (before ++ R ++ after) ->
     (4294967295 <= N.of_nat (length (bb_data dst) + length (concat (somes R))))%N ->
     is_panic (bb_append_from p dst src (length (somes before)) (length (somes before) + length (somes R)) pos)).
Proof.
  split.
  - intros T dst src nl before R after pos [HV _] HL. unfold pb_append_from, pb_len in *.
    rewrite HV, !somes_app. rewrite slice_ok by (rewrite ?app_length; lia). rewrite bind_ret.
    rewrite skipn_app_len by reflexivity. replace (length (somes before) + length (somes R) - length (somes before)) with (length (somes R)) by lia.
    rewrite firstn_app_len by reflexivity. rewrite app_length. destruct (N.ltb_spec (N.of_nat (length (pb_values dst) + length (somes R))) u32_max) as [X|X]; [unfold u32_max in X; lia|reflexivity].
  - intros p dst src nl before R after pos (HD & HO & _) HL.
    assert (US : forall lim a b, (exists x, usub lim p a b = Ret x) \/ is_panic (usub lim p a b)).
    { intros lim a b. unfold usub. repeat match goal with |- context [if ?c then _ else _] => destruct c end; eauto; right; eexists; reflexivity. }
    assert (UA : forall lim a b, (exists x, uadd lim p a b = Ret x) \/ is_panic (uadd lim p a b)).
    { intros lim a b. unfold uadd. repeat match goal with |- context [if ?c then _ else _] => destruct c end; eauto; right; eexists; reflexivity. }
    assert (IX : forall (l : list N) i, (exists x, idx l i = Ret x) \/ is_panic (idx l i)).
    { intros l i. unfold idx. destruct (nth_error l i); eauto. right; eexists; reflexivity. }
    assert (PO : forall count i last offsets, (exists x, bb_push_offsets p src i count last offsets = Ret x) \/ is_panic (bb_push_offsets p src i count last offsets)).
    { induction count as [|count IH]; intros i last offsets; cbn [bb_push_offsets]; [eauto|]. unfold bb_item_len, sub32, add32.
      destruct (IX (bb_offsets src) (i + 1)) as [(hi & ->)|(k & ->)]; [|right; eexists; reflexivity]. rewrite bind_ret.
      destruct (IX (bb_offsets src) i) as [(lo & ->)|(k & ->)]; [|right; eexists; reflexivity]. rewrite bind_ret.
      destruct (US u32_lim hi lo) as [(len & ->)|(k & ->)]; [|right; eexists; reflexivity]. rewrite bind_ret.
      destruct (UA u32_lim last len) as [(l2 & ->)|(k & ->)]; [|right; eexists; reflexivity]. rewrite bind_ret. apply IH. }
    unfold bb_append_from, sub64.
    set (items := somes (before ++ R ++ after)) in *.
    assert (Eit : items = somes before ++ somes R ++ somes after) by (unfold items; rewrite !somes_app; reflexivity).
    unfold idx. rewrite HO. rewrite running_nth by (rewrite Eit, !app_length; lia). rewrite bind_ret.
    rewrite running_nth by (rewrite Eit, !app_length; lia). rewrite bind_ret.
    destruct (US u64_lim (N.of_nat (length (somes before) + length (somes R))) (N.of_nat (length (somes before)))) as [(cl & ->)|(k & ->)]; [|eexists; reflexivity]. rewrite bind_ret.
    match goal with |- context [bb_push_offsets p src ?i ?c ?l ?o] => destruct (PO c i l o) as [(os & ->)|(k & ->)] end; [|eexists; reflexivity]. rewrite bind_ret.
    assert (E1 : firstn (length (somes before)) items = somes before) by (rewrite Eit; apply firstn_app_len; reflexivity).
    assert (E2 : firstn (length (somes before) + length (somes R)) items = somes before ++ somes R)
      by (rewrite Eit, app_assoc; apply firstn_app_len; rewrite app_length; reflexivity).
    rewrite E1, E2, !N.add_0_l, !Nat2N.id, HD.
    assert (EC : concat items = concat (somes before) ++ concat (somes R) ++ concat (somes after)) by (rewrite Eit, !concat_app; reflexivity).
    rewrite concat_app, app_length. rewrite slice_ok by (try rewrite EC; rewrite ?app_length; lia). rewrite bind_ret.
    replace (length (concat (somes before)) + length (concat (somes R)) - length (concat (somes before))) with (length (concat (somes R))) by lia.
    rewrite EC. rewrite skipn_app_len by reflexivity. rewrite firstn_app_len by reflexivity. rewrite app_length.
    destruct (N.ltb_spec (N.of_nat (length (bb_data dst) + length (concat (somes R)))) u32_max) as [X|X]; [unfold u32_max in X; lia|eexists; reflexivity].
Qed.
Print Assumptions C15_too_large.

(** The hypotheses can be met: a destination that already has 2^32-2 bytes. *)
Example C15_too_large_witness :
  exists src (dst : bin_buf),
    bb_append_rows (bb_new false) [Some [1; 2]; Some [3]]%N = Ret src
    /\ bb_holds src false ([Some [1; 2]%N] ++ [Some [3]%N] ++ [])
    /\ N.of_nat (length (bb_data dst)) = 4294967294%N
    /\ forall p, is_panic (bb_append_from p dst src 1 2 0).
Proof.
  eexists. exists (mk_bin (repeat 0%N (N.to_nat 4294967294)) [0; 4294967294]%N None). split; [reflexivity|].
  match goal with |- ?A /\ _ => assert (H : A) by (split; [reflexivity|]; split; [reflexivity|]; split; [reflexivity|repeat constructor]) end.
  split; [exact H|]. split; [cbn [bb_data]; rewrite repeat_length; apply N2Nat.id|]. intros p.
  refine (proj2 C15_too_large p _ _ false [Some [1; 2]%N] [Some [3]%N] [] 0 H _).
  cbn [bb_data]. rewrite repeat_length, Nat2N.inj_add, N2Nat.id. vm_compute. discriminate.
Qed.

(** C08: a cleared bitmap is as good as new exactly under that condition. *)
Theorem C08_as_new_exact : forall rounds bits,
  (exists b b', bm_rounds bm_new rounds = Ret b /\ bm_appends b bits = Ret b' /\ reads_as b' bits)
  <-> forall i r, i < length bits -> i < 8 * 1024 -> In r rounds -> nth i r false = true -> nth i bits false = true.
Proof.
  intros rounds bits. split; [|apply C08_clear_partial].
  intros (b & b' & E1 & E2 & _ & RD) i r Hi Hc Hr Hn.
  destruct (C08_clear_exact rounds bits) as (c & c' & F1 & F2 & _ & _ & X & _).
  rewrite E1 in F1. injection F1 as <-. rewrite E2 in F2. injection F2 as <-.
  assert (Y : existsb (fun r => nth i r false) rounds = true) by (apply existsb_exists; exists r; auto).
  apply Nat.ltb_lt in Hc. specialize (X i Hi). rewrite Hc, Y, RD in X. apply Nat.ltb_lt in Hi. rewrite Hi in X.
  assert (X2 : nth i bits false = nth i bits false || true && true) by congruence. rewrite X2. apply orb_true_r.
Qed.
Print Assumptions C08_as_new_exact.
