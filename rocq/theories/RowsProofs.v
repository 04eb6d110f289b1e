From Verif Require Import Base BaseProofs Spec SpecRows Observe BitmapProofs Buffers BuffersProofs.
Open Scope nat_scope.

Section Rows.
Context {T : Type}.
Implicit Types rows R : list (option T).

Lemma take_drop k : forall rows, take_vals k rows ++ drop_vals k rows = rows.
Proof.
  intros rows; revert k. induction rows as [|[v|] rows IH]; intros [|k]; cbn; auto; f_equal; [apply IH|apply (IH (S k))].
Qed.

Lemma num_vals_app a b : num_vals (a ++ b : list (option T)) = num_vals a + num_vals b.
Proof. unfold num_vals. rewrite somes_app, app_length. reflexivity. Qed.

Lemma num_take k : forall rows, num_vals (take_vals k rows) = min k (num_vals rows).
Proof.
  intros rows; revert k. unfold num_vals. induction rows as [|[v|] rows IH]; intros [|k]; cbn; auto.
  apply (IH (S k)).
Qed.

Lemma num_drop k rows : num_vals (drop_vals k rows) = num_vals rows - k.
Proof.
  pose proof (f_equal num_vals (take_drop k rows)) as E. rewrite num_vals_app, num_take in E. lia.
Qed.

Lemma take_ends k : forall rows, k <= num_vals rows -> ends_some (take_vals k rows).
Proof.
  intros rows; revert k. unfold num_vals. induction rows as [|[v|] rows IH]; intros [|k] H; cbn in *; try (left; reflexivity).
  - right. destruct (IH k ltac:(lia)) as [E|(r & w & E)].
    + exists [], v. cbn. rewrite E. reflexivity.
    + exists (Some v :: r), w. cbn. rewrite E. reflexivity.
  - right. destruct (IH (S k) H) as [E|(r & w & E)].
    + exfalso. pose proof (num_take (S k) rows) as N. rewrite E in N. unfold num_vals in N. cbn [somes length] in N. lia.
    + exists (None :: r), w. cbn [app]. cbn [take_vals] in *. rewrite E. reflexivity.
Qed.

Lemma trim_ends rows : ends_some (trim rows).
Proof. apply take_ends. lia. Qed.

Lemma num_trim rows : num_vals (trim rows) = num_vals rows.
Proof. unfold trim. rewrite num_take. lia. Qed.

Lemma nonempty_num R : ends_some R -> R <> [] -> 0 < num_vals R.
Proof.
  intros [->|(r & v & ->)] H; [congruence|]. rewrite num_vals_app. unfold num_vals at 2. cbn. lia.
Qed.

Lemma ends_app a b : ends_some b -> b <> [] -> ends_some (a ++ b : list (option T)).
Proof. intros [->|(r & v & ->)] H; [congruence|]. right. exists (a ++ r), v. apply app_assoc. Qed.

Lemma trim_none_only rows : num_vals rows = 0 -> trim rows = [].
Proof. intros H. unfold trim. rewrite H. destruct rows; reflexivity. Qed.

(** Windows and leftover together are the rows up to the last non-null one. *)
Lemma windows_leftover fuel cap : 0 < cap -> forall rows, num_vals rows < fuel ->
  concat (windows fuel cap rows) ++ leftover fuel cap rows = trim rows.
Proof.
  intros Hc. induction fuel as [|fuel IH]; intros rows H; [lia|]. cbn [windows leftover].
  destruct (Nat.leb_spec cap (num_vals rows)) as [L|L]; [|reflexivity].
  cbn [concat]. rewrite <- app_assoc, IH by (rewrite num_drop; lia).
  unfold trim. rewrite num_drop.
  clear IH H. revert cap L Hc. unfold num_vals.
  assert (X : forall rows a b, take_vals a rows ++ take_vals b (drop_vals a rows) = take_vals (a + b) rows).
  { intros rs; induction rs as [|[v|] rs IH2]; intros [|a] b; cbn; auto.
    - destruct b; reflexivity.
    - f_equal. apply IH2.
    - f_equal. apply (IH2 (S a) b). }
  intros cap L _. rewrite X. f_equal. lia.
Qed.

Lemma windows_spec fuel cap rows : Forall (fun w => num_vals w = cap /\ ends_some w) (windows fuel cap rows).
Proof.
  revert rows. induction fuel as [|fuel IH]; intros rows; cbn [windows]; [constructor|].
  destruct (Nat.leb_spec cap (num_vals rows)) as [L|L]; [|constructor].
  constructor; [|apply IH]. split; [rewrite num_take; lia|apply take_ends; exact L].
Qed.

Lemma leftover_spec fuel cap : 0 < cap -> forall rows, num_vals rows < fuel ->
  num_vals (leftover fuel cap rows) < cap /\ ends_some (leftover fuel cap rows).
Proof.
  intros Hc. induction fuel as [|fuel IH]; intros rows H; [lia|]. cbn [leftover].
  destruct (Nat.leb_spec cap (num_vals rows)) as [L|L].
  - apply IH. rewrite num_drop. lia.
  - split; [rewrite num_trim; exact L|apply trim_ends].
Qed.

Lemma allowed_app nl a b : rows_allowed nl (a ++ b : list (option T)) <-> rows_allowed nl a /\ rows_allowed nl b.
Proof.
  unfold rows_allowed. rewrite Forall_app. destruct nl; intuition congruence.
Qed.

Lemma allowed_take nl k rows : rows_allowed nl rows -> rows_allowed nl (take_vals k rows).
Proof. intros H. rewrite <- (take_drop k rows) in H. apply allowed_app in H. tauto. Qed.

Lemma allowed_drop nl k rows : rows_allowed nl rows -> rows_allowed nl (drop_vals k rows).
Proof. intros H. rewrite <- (take_drop k rows) in H. apply allowed_app in H. tauto. Qed.

Lemma holds_allowed (b : prim_buf T) nl rows : pb_holds b nl rows -> rows_allowed nl rows.
Proof.
  intros [_ H]. destruct (pb_validity b); cbn in H; [left; tauto|right; tauto].
Qed.

Lemma allowed_false_num rows : rows_allowed false rows -> num_vals rows = length rows.
Proof. intros [H|H]; [discriminate|]. apply all_some_length. exact H. Qed.

Lemma pb_rows_app (a b : list (option T)) : forall buf,
  pb_append_rows buf (a ++ b) = let* buf := pb_append_rows buf a in pb_append_rows buf b.
Proof.
  induction a as [|[v|] a IH]; intros buf; cbn [app pb_append_rows]; [reflexivity| |]; rewrite bind_assoc; apply bind_ext; intros; apply IH.
Qed.

End Rows.
