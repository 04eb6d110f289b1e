From Verif Require Import Base BaseProofs Spec Buffers Observe BitmapProofs.
Open Scope nat_scope.

(** ** Rows *)

Lemma somes_app {T} (a b : list (option T)) : somes (a ++ b) = somes a ++ somes b.
Proof. induction a as [|[v|] a IH]; simpl; auto. rewrite IH. reflexivity. Qed.

Lemma validity_app {T} (a b : list (option T)) : validity_of (a ++ b) = validity_of a ++ validity_of b.
Proof. apply map_app. Qed.

Lemma validity_length {T} (a : list (option T)) : length (validity_of a) = length a.
Proof. apply map_length. Qed.

Lemma count_validity {T} (a : list (option T)) : count_true (validity_of a) = length (somes a).
Proof.
  induction a as [|[v|] a IH]; [reflexivity| |]; cbn [validity_of map is_some somes length];
    rewrite count_true_cons; fold (validity_of a); rewrite IH; reflexivity.
Qed.

Lemma somes_length_le {T} (a : list (option T)) : length (somes a) <= length a.
Proof. induction a as [|[v|] a IH]; simpl; lia. Qed.

Lemma all_some_map {T} (a : list (option T)) :
  Forall (fun r => is_some r = true) a -> a = map Some (somes a).
Proof.
  induction 1 as [|[v|] a H _ IH]; simpl in *; [reflexivity| |discriminate]. f_equal; exact IH.
Qed.

Lemma all_some_length {T} (a : list (option T)) :
  Forall (fun r => is_some r = true) a -> length (somes a) = length a.
Proof. intros H. apply all_some_map in H. rewrite H at 2. rewrite map_length. reflexivity. Qed.

Lemma not_all_some_length {T} (a : list (option T)) :
  length (somes a) = length a -> Forall (fun r => is_some r = true) a.
Proof.
  induction a as [|[v|] a IH]; simpl; intros H; constructor; auto.
  - pose proof (somes_length_le a). lia.
  - pose proof (somes_length_le a). lia.
Qed.

(** ** Fixed-width buffers *)

Lemma pb_rows_some {T} (rows : list (option T)) : forall vs bm,
  pb_append_rows (mk_prim vs (Some bm)) rows
  = let* bm' := bm_appends bm (validity_of rows) in Ret (mk_prim (vs ++ somes rows) (Some bm')).
Proof.
  induction rows as [|[v|] rows IH]; intros vs bm.
  - cbn. rewrite app_nil_r. reflexivity.
  - cbn [pb_append_rows somes validity_of map is_some bm_appends].
    unfold pb_append; cbn [pb_validity pb_values validity_append].
    rewrite !bind_assoc. apply bind_ext. intros b1. rewrite !bind_ret. rewrite IH.
    apply bind_ext. intros b2. rewrite <- app_assoc. reflexivity.
  - cbn [pb_append_rows somes validity_of map is_some bm_appends].
    unfold pb_append_null; cbn [pb_validity pb_values validity_append_null].
    rewrite !bind_assoc. apply bind_ext. intros b1. rewrite !bind_ret. rewrite IH. reflexivity.
Qed.

Lemma pb_rows_none {T} (rows : list (option T)) : forall vs,
  Forall (fun r => is_some r = true) rows ->
  pb_append_rows (mk_prim vs None) rows = Ret (mk_prim (vs ++ somes rows) None).
Proof.
  induction rows as [|[v|] rows IH]; intros vs H.
  - cbn. rewrite app_nil_r. reflexivity.
  - inversion H; subst. cbn. rewrite IH by assumption. rewrite <- app_assoc. reflexivity.
  - inversion H; discriminate.
Qed.

Lemma pb_rows_none_null {T} (rows : list (option T)) : forall vs,
  ~ Forall (fun r => is_some r = true) rows ->
  pb_append_rows (mk_prim vs None) rows = Panic PExplicit.
Proof.
  induction rows as [|[v|] rows IH]; intros vs H.
  - exfalso; apply H; constructor.
  - cbn. apply IH. intros H'. apply H. constructor; auto.
  - reflexivity.
Qed.

(** Proof-level description with stale validity bits. *)
Definition val_rep (v : option bitmap) (nullable : bool) (bits : list bool) (st : nat -> bool) : Prop :=
  match v with
  | Some bm => nullable = true /\ bm_rep bm bits st
  | None => nullable = false
  end.

Lemma pb_rows_rep {T} (b : prim_buf T) nl bits st rows :
  val_rep (pb_validity b) nl bits st -> rows_allowed nl rows ->
  exists b', pb_append_rows b rows = Ret b'
    /\ pb_values b' = pb_values b ++ somes rows
    /\ val_rep (pb_validity b') nl (bits ++ stale_or st (length bits) (validity_of rows)) st.
Proof.
  destruct b as [vs [bm|]]; cbn [val_rep pb_validity pb_values].
  - intros [-> H] _. destruct (appends_rep (validity_of rows) bm bits st H) as (bm' & E & H').
    eexists. rewrite pb_rows_some, E, bind_ret. repeat (split; [reflexivity|]); try exact H'.
  - intros -> [HA|HA]; [discriminate|]. eexists. rewrite pb_rows_none by exact HA.
    repeat split; reflexivity.
Qed.

Lemma val_rep_new nl : val_rep (new_validity nl) nl [] no_stale.
Proof. destruct nl; cbn; [split; [reflexivity|apply rep_new]|reflexivity]. Qed.

Lemma val_rep_shows {T} v nl (rows : list (option T)) st : rows_allowed nl rows ->
  val_rep v nl (validity_of rows) st -> validity_shows v nl rows.
Proof.
  destruct v as [bm|]; cbn.
  - intros _ [-> H]. split; [reflexivity|]. eapply rep_reads; exact H.
  - intros [H|H] ->; [discriminate|]. auto.
Qed.

Lemma pb_new_rows {T} nl (rows : list (option T)) : rows_allowed nl rows ->
  exists b, pb_append_rows (pb_new nl) rows = Ret b /\ pb_values b = somes rows
    /\ val_rep (pb_validity b) nl (validity_of rows) no_stale.
Proof.
  intros H. destruct (pb_rows_rep (@pb_new T nl) nl [] no_stale rows (val_rep_new nl) H) as (b & E & V & R).
  exists b. cbn [app length] in R. rewrite stale_or_none in R. auto.
Qed.

Lemma pb_holds_counts {T} (b : prim_buf T) nl rows : pb_holds b nl rows ->
  pb_num_values b = length rows /\ pb_len b = length (somes rows) /\ pb_is_nullable b = nl
  /\ forall p, pb_has_nulls p b = Ret (negb (forallb is_some rows)).
Proof.
  intros [HV HS]. unfold pb_num_values, pb_len, pb_is_nullable, pb_has_nulls.
  rewrite HV. destruct (pb_validity b) as [bm|]; cbn in HS.
  - destruct HS as [-> [HL _]]. rewrite validity_length in HL. repeat split; auto.
    intros p. unfold validity_has_nulls, sub64, usub. rewrite HL.
    pose proof (somes_length_le rows).
    destruct (N.leb_spec (N.of_nat (length (somes rows))) (N.of_nat (length rows))); [|lia].
    rewrite bind_ret. do 2 f_equal.
    destruct (forallb is_some rows) eqn:E.
    + rewrite forallb_forall in E. assert (length (somes rows) = length rows).
      { apply all_some_length. apply Forall_forall. exact E. }
      apply N.eqb_eq. lia.
    + apply N.eqb_neq. intros Z.
      assert (Forall (fun r => is_some r = true) rows) as F by (apply not_all_some_length; lia).
      rewrite Forall_forall in F. apply forallb_forall in F. congruence.
  - destruct HS as [-> F]. rewrite (all_some_length _ F). repeat split; auto.
    intros p. cbn. rewrite Forall_forall in F. apply forallb_forall in F. rewrite F. reflexivity.
Qed.

Lemma pb_rounds_eq {T} (rounds : list (list (option T))) : forall vs bm,
  rounds <> [] ->
  pb_rounds (mk_prim vs (Some bm)) rounds
  = let* bm' := bm_rounds bm (map validity_of rounds) in Ret (mk_prim [] (Some bm')).
Proof.
  induction rounds as [|r rounds IH]; intros vs bm H; [congruence|].
  cbn [pb_rounds bm_rounds map]. rewrite pb_rows_some. rewrite !bind_assoc. apply bind_ext. intros b1.
  rewrite bind_ret. unfold pb_clear; cbn [pb_validity option_map].
  destruct rounds as [|r2 rounds]; [reflexivity|]. apply IH. discriminate.
Qed.

Lemma pb_rounds_none {T} (rounds : list (list (option T))) :
  Forall (Forall (fun r => is_some r = true)) rounds ->
  pb_rounds (mk_prim [] None) rounds = Ret (mk_prim [] None).
Proof.
  induction 1 as [|r rounds H _ IH]; [reflexivity|].
  cbn [pb_rounds]. rewrite pb_rows_none by exact H. cbn. exact IH.
Qed.

(** Bulk copy equals appending the copied rows one at a time. *)
Lemma row_window {T} (before R after : list (option T)) :
  (R = [] \/ exists R' v, R = R' ++ [Some v]) ->
  valid_window (validity_of (before ++ R ++ after)) (length before) (length (somes R)) (validity_of R).
Proof.
  intros H. exists (validity_of before), (validity_of after).
  rewrite !validity_app, validity_length, count_validity. repeat split.
  destruct H as [->|(R' & v & ->)]; [left; reflexivity|]. right.
  rewrite validity_app. eexists; reflexivity.
Qed.

Lemma pb_append_from_eq {T} (dst src : prim_buf T) nl before R after :
  pb_holds src nl (before ++ R ++ after) -> pb_is_nullable dst = nl ->
  (R = [] \/ exists R' v, R = R' ++ [Some v]) ->
  (N.of_nat (pb_len dst + length (somes R)) < u32_max)%N ->
  pb_append_from dst src (length (somes before)) (length (somes before) + length (somes R)) (length before)
  = let* b := pb_append_rows dst R in
    Ret (b, if nl then length before + length R else length (somes R)).
Proof.
  intros [HV HS] HN HR HL. unfold pb_append_from.
  rewrite HV, !somes_app.
  rewrite slice_ok by (rewrite ?app_length; lia). rewrite bind_ret.
  replace (length (somes before) + length (somes R) - length (somes before)) with (length (somes R)) by lia.
  rewrite skipn_app_len by reflexivity. rewrite firstn_app_len by reflexivity.
  unfold pb_len in HL. rewrite app_length.
  destruct (N.ltb_spec (N.of_nat (length (pb_values dst) + length (somes R))) u32_max); [|lia].
  destruct dst as [vs [bm|]]; cbn [pb_is_nullable pb_validity pb_values] in *; subst nl.
  - destruct (pb_validity src) as [sbm|]; cbn in HS; [|destruct HS; discriminate].
    destruct HS as [_ HS]. unfold validity_append_from.
    rewrite (append_from_appends bm sbm _ _ _ _ HS (row_window before R after HR)).
    rewrite pb_rows_some, !bind_assoc. apply bind_ext. intros b1. rewrite !bind_ret. cbn [fst snd].
    rewrite validity_length. reflexivity.
  - destruct (pb_validity src) as [sbm|]; cbn in HS; [destruct HS; discriminate|].
    destruct HS as [_ HS]. cbn [validity_append_from]. rewrite bind_ret. cbn [fst snd].
    apply Forall_app in HS. destruct HS as [_ HS]. apply Forall_app in HS. destruct HS as [HS _].
    rewrite pb_rows_none by exact HS. rewrite bind_ret. reflexivity.
Qed.

(** ** Binary buffers *)

Lemma running_head from items : exists l, running_offsets from items = from :: l.
Proof. destruct items; simpl; eexists; reflexivity. Qed.

Lemma running_app a : forall from b,
  running_offsets from (a ++ b)
  = running_offsets from a ++ tl (running_offsets (from + N.of_nat (length (concat a))) b).
Proof.
  induction a as [|v a IH]; intros from b.
  - cbn [app concat length running_offsets]. rewrite N.add_0_r.
    destruct (running_head from b) as [l E]. rewrite E. reflexivity.
  - cbn [app concat running_offsets]. rewrite IH, app_length. cbn [app].
    do 3 f_equal. rewrite Nat2N.inj_add. rewrite N.add_assoc. reflexivity.
Qed.

Lemma running_length items : forall from, length (running_offsets from items) = S (length items).
Proof. induction items as [|v items IH]; intros from; simpl; auto. Qed.

Lemma running_last items : forall from d,
  last (running_offsets from items) d = (from + N.of_nat (length (concat items)))%N.
Proof.
  induction items as [|v items IH]; intros from d.
  - cbn. lia.
  - cbn [running_offsets concat]. destruct (running_head (from + N.of_nat (length v)) items) as [l E].
    pose proof (IH (from + N.of_nat (length v))%N d) as H. rewrite E in *.
    change (last (from :: (from + N.of_nat (length v))%N :: l) d) with (last ((from + N.of_nat (length v))%N :: l) d).
    rewrite H, app_length. lia.
Qed.

Lemma running_nth items : forall from i, i <= length items ->
  nth_error (running_offsets from items) i = Some (from + N.of_nat (length (concat (firstn i items))))%N.
Proof.
  induction items as [|v items IH]; intros from [|i] H; cbn [length] in H; try lia.
  - cbn. f_equal. lia.
  - cbn. f_equal. lia.
  - cbn [running_offsets nth_error firstn concat]. rewrite IH by lia. f_equal. rewrite app_length. lia.
Qed.

Definition snoc_offsets (offs : list N) (from : N) (items : list (list N)) : list N :=
  offs ++ tl (running_offsets from items).

Lemma snoc_cons offs from v items :
  snoc_offsets (offs ++ [from + N.of_nat (length v)]%N) (from + N.of_nat (length v)) items
  = snoc_offsets offs from (v :: items).
Proof.
  unfold snoc_offsets. cbn [running_offsets tl].
  destruct (running_head (from + N.of_nat (length v)) items) as [l E]. rewrite E. cbn [tl].
  rewrite <- app_assoc. reflexivity.
Qed.

Lemma bb_rows_some rows : forall data offs bm,
  (N.of_nat (length data + length (concat (somes rows))) <= u32_max)%N ->
  bb_append_rows (mk_bin data offs (Some bm)) rows
  = let* bm' := bm_appends bm (validity_of rows) in
    Ret (mk_bin (data ++ concat (somes rows))
                (snoc_offsets offs (N.of_nat (length data)) (somes rows)) (Some bm')).
Proof.
  induction rows as [|[v|] rows IH]; intros data offs bm H.
  - cbn. unfold snoc_offsets; cbn. rewrite !app_nil_r. reflexivity.
  - cbn [bb_append_rows somes validity_of map is_some bm_appends concat] in *.
    rewrite app_length in H.
    unfold bb_append; cbn [bb_validity bb_data bb_offsets validity_append].
    rewrite app_length.
    destruct (N.leb_spec (N.of_nat (length data + length v)) u32_max); [|lia].
    rewrite !bind_assoc. apply bind_ext. intros b1. rewrite !bind_ret.
    rewrite IH by (rewrite app_length; lia).
    apply bind_ext. intros b2. rewrite <- app_assoc, app_length, Nat2N.inj_add, snoc_cons. reflexivity.
  - cbn [bb_append_rows somes validity_of map is_some bm_appends] in *.
    unfold bb_append_null; cbn [bb_validity bb_data bb_offsets validity_append_null].
    rewrite !bind_assoc. apply bind_ext. intros b1. rewrite !bind_ret. rewrite IH by exact H. reflexivity.
Qed.

Lemma bb_rows_none rows : forall data offs,
  (N.of_nat (length data + length (concat (somes rows))) <= u32_max)%N ->
  Forall (fun r => is_some r = true) rows ->
  bb_append_rows (mk_bin data offs None) rows
  = Ret (mk_bin (data ++ concat (somes rows))
                (snoc_offsets offs (N.of_nat (length data)) (somes rows)) None).
Proof.
  induction rows as [|[v|] rows IH]; intros data offs H HF.
  - cbn. unfold snoc_offsets; cbn. rewrite !app_nil_r. reflexivity.
  - inversion HF; subst. cbn [bb_append_rows somes concat] in *.
    rewrite app_length in H.
    unfold bb_append; cbn [bb_validity bb_data bb_offsets validity_append].
    rewrite app_length.
    destruct (N.leb_spec (N.of_nat (length data + length v)) u32_max); [|lia].
    rewrite !bind_ret.
    rewrite IH by (try assumption; rewrite app_length; lia).
    rewrite <- app_assoc, app_length, Nat2N.inj_add, snoc_cons. reflexivity.
  - inversion HF; discriminate.
Qed.

Lemma bb_rows_rep b nl bits st rows :
  val_rep (bb_validity b) nl bits st -> rows_allowed nl rows ->
  (N.of_nat (length (bb_data b) + length (concat (somes rows))) <= u32_max)%N ->
  exists b', bb_append_rows b rows = Ret b'
    /\ bb_data b' = bb_data b ++ concat (somes rows)
    /\ bb_offsets b' = snoc_offsets (bb_offsets b) (N.of_nat (length (bb_data b))) (somes rows)
    /\ val_rep (bb_validity b') nl (bits ++ stale_or st (length bits) (validity_of rows)) st.
Proof.
  destruct b as [data offs [bm|]]; cbn [val_rep bb_validity bb_data bb_offsets].
  - intros [-> H] _ HL. destruct (appends_rep (validity_of rows) bm bits st H) as (bm' & E & H').
    eexists. rewrite bb_rows_some, E, bind_ret by exact HL. repeat (split; [reflexivity|]); try exact H'.
  - intros -> [HA|HA] HL; [discriminate|]. eexists. rewrite bb_rows_none by assumption.
    repeat split; reflexivity.
Qed.

Lemma bb_rows_overflow rows : forall b nl bits st,
  val_rep (bb_validity b) nl bits st -> rows_allowed nl rows ->
  (N.of_nat (length (bb_data b)) <= u32_max)%N ->
  (u32_max < N.of_nat (length (bb_data b) + length (concat (somes rows))))%N ->
  bb_append_rows b rows = Panic PExpect.
Proof.
  induction rows as [|[v|] rows IH]; intros b nl bits st HR HA HL H.
  - cbn in H. lia.
  - cbn [bb_append_rows somes concat] in *. rewrite app_length in H. unfold bb_append.
    rewrite app_length. destruct (N.leb_spec (N.of_nat (length (bb_data b) + length v)) u32_max); [|reflexivity].
    assert (HA' : rows_allowed nl rows) by (destruct HA as [HA|HA]; [left; exact HA|right; inversion HA; auto]).
    destruct (bb_validity b) as [bm|] eqn:EV; cbn [validity_append val_rep] in *.
    + destruct HR as [-> HR]. destruct (append_rep bm bits st true HR) as (bm' & E & HR').
      rewrite E, !bind_ret. eapply IH; cbn [bb_data bb_validity]; eauto.
      * split; [reflexivity|exact HR'].
      * rewrite app_length. lia.
      * rewrite app_length. lia.
    + rewrite !bind_ret. eapply (IH _ nl [] no_stale); cbn [bb_data bb_validity]; eauto.
      * rewrite app_length. lia.
      * rewrite app_length. lia.
  - cbn [bb_append_rows somes] in *. unfold bb_append_null.
    assert (nl = true) as -> by (destruct HA as [HA|HA]; [exact HA|inversion HA; discriminate]).
    destruct (bb_validity b) as [bm|] eqn:EV; cbn [validity_append_null val_rep] in *; [|discriminate].
    destruct HR as [_ HR]. destruct (append_rep bm bits st false HR) as (bm' & E & HR').
    rewrite E, !bind_ret. eapply IH; cbn [bb_data bb_validity]; eauto.
    + split; [reflexivity|exact HR'].
    + left; reflexivity.
Qed.

Lemma bb_new_rows nl rows : rows_allowed nl rows ->
  (N.of_nat (length (concat (somes rows))) <= u32_max)%N ->
  exists b, bb_append_rows (bb_new nl) rows = Ret b /\ bb_data b = concat (somes rows)
    /\ bb_offsets b = running_offsets 0 (somes rows)
    /\ val_rep (bb_validity b) nl (validity_of rows) no_stale.
Proof.
  intros H HL. destruct (bb_rows_rep (bb_new nl) nl [] no_stale rows (val_rep_new nl) H) as (b & E & D & O & R);
    [exact HL|].
  exists b. cbn [app length] in R. rewrite stale_or_none in R. repeat split; auto.
  rewrite O. cbn [bb_new bb_offsets bb_data length]. unfold snoc_offsets.
  change (N.of_nat 0) with 0%N.
  destruct (running_head 0 (somes rows)) as [l El]. rewrite El. reflexivity.
Qed.

Lemma bb_item_spec items data offs validity i v p :
  data = concat items -> offs = running_offsets 0 items -> nth_error items i = Some v ->
  (N.of_nat (length (concat items)) <= u32_max)%N ->
  exists lo hi, nth_error offs i = Some lo /\ nth_error offs (S i) = Some hi /\ (lo <= hi)%N
    /\ firstn (N.to_nat hi - N.to_nat lo) (skipn (N.to_nat lo) data) = v
    /\ bb_item_len p (mk_bin data offs validity) i = Ret (N.of_nat (length v)).
Proof.
  intros -> -> Hi HL. assert (Hlt : i < length items) by (apply nth_error_Some; congruence).
  destruct (nth_error_split _ _ Hi) as (l1 & l2 & -> & Hl1). subst i.
  assert (E : firstn (S (length l1)) (l1 ++ v :: l2) = l1 ++ [v]).
  { replace (l1 ++ v :: l2) with ((l1 ++ [v]) ++ l2) by (rewrite <- app_assoc; reflexivity).
    apply firstn_app_len. rewrite app_length; simpl; lia. }
  assert (A : nth_error (running_offsets 0 (l1 ++ v :: l2)) (length l1) = Some (N.of_nat (length (concat l1)))).
  { rewrite running_nth by lia. rewrite firstn_app_len by reflexivity. f_equal. }
  assert (B : nth_error (running_offsets 0 (l1 ++ v :: l2)) (S (length l1))
              = Some (N.of_nat (length (concat l1) + length v))).
  { rewrite running_nth by lia. rewrite E, concat_app, app_length. cbn [concat]. rewrite app_nil_r. f_equal. }
  exists (N.of_nat (length (concat l1))), (N.of_nat (length (concat l1) + length v)).
  split; [exact A|]. split; [exact B|]. split; [lia|]. split.
  - rewrite !Nat2N.id. rewrite concat_app. rewrite skipn_app_len by reflexivity.
    cbn [concat]. apply firstn_app_len. lia.
  - unfold bb_item_len; cbn [bb_offsets].
    rewrite Nat.add_1_r. rewrite (idx_some _ _ _ A), (idx_some _ _ _ B). rewrite !bind_ret.
    rewrite sub32_ok by lia. f_equal. lia.
Qed.

Lemma bb_holds_counts b nl rows : bb_holds b nl rows ->
  bb_num_values b = length rows /\ bb_len b = length (somes rows) /\ bb_is_nullable b = nl
  /\ forall p, bb_has_nulls p b = Ret (negb (forallb is_some rows)).
Proof.
  intros (HD & HO & HS). unfold bb_num_values, bb_has_nulls, bb_is_nullable.
  assert (HL : bb_len b = length (somes rows)) by (unfold bb_len; rewrite HO, running_length; lia).
  rewrite HL.
  pose proof (pb_holds_counts (mk_prim (somes rows) (bb_validity b)) nl rows (conj eq_refl HS)) as H.
  unfold pb_num_values, pb_is_nullable, pb_has_nulls in H; cbn [pb_validity pb_values] in H.
  destruct H as (H1 & H2 & H3 & H4). auto.
Qed.

Lemma push_offsets_ok p buf all n : forall i last offs,
  bb_offsets buf = running_offsets 0 all -> i + n <= length all ->
  (N.of_nat (length (concat all)) <= u32_max)%N ->
  (last + N.of_nat (length (concat (firstn n (skipn i all)))) < u32_lim)%N ->
  bb_push_offsets p buf i n last offs = Ret (snoc_offsets offs last (firstn n (skipn i all))).
Proof.
  induction n as [|n IH]; intros i last offs HO Hi HA HL.
  - cbn. unfold snoc_offsets. cbn. rewrite app_nil_r. reflexivity.
  - cbn [bb_push_offsets].
    destruct (nth_error all i) as [v|] eqn:E; [|apply nth_error_None in E; lia].
    destruct (nth_error_split _ _ E) as (l1 & l2 & EQ & Hl1).
    assert (ES : skipn i all = v :: l2) by (rewrite EQ; apply skipn_app_len; auto).
    rewrite ES in HL |- *. cbn [firstn concat] in HL |- *. rewrite app_length in HL.
    destruct (bb_item_spec all (concat all) (bb_offsets buf) (bb_validity buf) i v p eq_refl HO E HA)
      as (lo & hi & _ & _ & _ & _ & HI).
    replace (bb_item_len p buf i) with (Ret (N.of_nat (length v))) by (symmetry; exact HI).
    rewrite bind_ret. rewrite add32_ok by lia. rewrite bind_ret.
    assert (ES' : skipn (S i) all = l2).
    { rewrite EQ. replace (l1 ++ v :: l2) with ((l1 ++ [v]) ++ l2) by (rewrite <- app_assoc; reflexivity).
      apply skipn_app_len. rewrite app_length; simpl; lia. }
    rewrite IH; auto; try lia; rewrite ES'.
    + rewrite snoc_cons. reflexivity.
    + lia.
Qed.

Lemma concat_firstn_skipn_le {A} i n (l : list (list A)) :
  length (concat (firstn n (skipn i l))) <= length (concat l).
Proof.
  rewrite <- (firstn_skipn i l) at 2. rewrite concat_app, app_length.
  rewrite <- (firstn_skipn n (skipn i l)) at 2. rewrite concat_app, app_length. lia.
Qed.

Lemma bb_append_from_eq p dst src nl before R after :
  bb_holds src nl (before ++ R ++ after) -> bb_is_nullable dst = nl ->
  (R = [] \/ exists R' v, R = R' ++ [Some v]) ->
  (N.of_nat (length (bb_data src)) <= u32_max)%N ->
  last (bb_offsets dst) 0%N = N.of_nat (length (bb_data dst)) ->
  (N.of_nat (length (bb_data dst) + length (concat (somes R))) < u32_max)%N ->
  (N.of_nat (length (before ++ R ++ after)) < u64_lim)%N ->
  bb_append_from p dst src (length (somes before)) (length (somes before) + length (somes R)) (length before)
  = let* b := bb_append_rows dst R in
    Ret (b, if nl then length before + length R else length (somes R)).
Proof.
  intros (HD & HO & HS) HN HR HLS HLast HL HRows. unfold bb_append_from.
  set (items := somes (before ++ R ++ after)) in *.
  assert (Eit : items = somes before ++ somes R ++ somes after) by (unfold items; rewrite !somes_app; reflexivity).
  rewrite HD in HLS.
  unfold idx. rewrite HO.
  rewrite running_nth by (rewrite Eit, !app_length; lia). rewrite bind_ret.
  rewrite running_nth by (rewrite Eit, !app_length; lia). rewrite bind_ret.
  unfold sub64, usub.
  destruct (N.leb_spec (N.of_nat (length (somes before))) (N.of_nat (length (somes before) + length (somes R)))); [|lia].
  rewrite bind_ret.
  replace (length (somes before) + length (somes R) - length (somes before)) with (length (somes R)) by lia.
  assert (EF : firstn (length (somes R)) (skipn (length (somes before)) items) = somes R).
  { rewrite Eit. rewrite skipn_app_len by reflexivity. apply firstn_app_len; reflexivity. }
  rewrite (push_offsets_ok p src items); auto.
  2:{ rewrite Eit, !app_length; lia. }
  2:{ rewrite EF, HLast. unfold u32_max, u32_lim in *. lia. }
  rewrite EF, bind_ret.
  assert (E1 : firstn (length (somes before)) items = somes before).
  { rewrite Eit. apply firstn_app_len; reflexivity. }
  assert (E2 : firstn (length (somes before) + length (somes R)) items = somes before ++ somes R).
  { rewrite Eit, app_assoc. apply firstn_app_len. rewrite app_length; reflexivity. }
  rewrite E1, E2, !N.add_0_l, !Nat2N.id.
  rewrite HD. fold items.
  assert (EC : concat items = concat (somes before) ++ concat (somes R) ++ concat (somes after)).
  { rewrite Eit, !concat_app. reflexivity. }
  rewrite concat_app, app_length.
  rewrite slice_ok by (try rewrite EC; rewrite ?app_length; lia). rewrite bind_ret.
  replace (length (concat (somes before)) + length (concat (somes R)) - length (concat (somes before)))
    with (length (concat (somes R))) by lia.
  rewrite EC. rewrite skipn_app_len by reflexivity. rewrite firstn_app_len by reflexivity.
  rewrite app_length.
  destruct (N.ltb_spec (N.of_nat (length (bb_data dst) + length (concat (somes R)))) u32_max); [|lia].
  assert (EN : N.to_nat (N.of_nat (length (somes before) + length (somes R)) - N.of_nat (length (somes before)))
               = length (somes R)) by lia.
  rewrite EN. rewrite HLast.
  destruct dst as [data offs [bm|]]; cbn [bb_is_nullable bb_validity bb_data bb_offsets] in *; subst nl.
  - destruct (bb_validity src) as [sbm|]; cbn in HS; [|destruct HS; discriminate].
    destruct HS as [_ HS]. unfold validity_append_from.
    rewrite (append_from_appends bm sbm _ _ _ _ HS (row_window before R after HR)).
    rewrite bb_rows_some by lia. rewrite !bind_assoc. apply bind_ext. intros b1. rewrite !bind_ret. cbn [fst snd].
    rewrite validity_length. reflexivity.
  - destruct (bb_validity src) as [sbm|]; cbn in HS; [destruct HS; discriminate|].
    destruct HS as [_ HS]. cbn [validity_append_from]. rewrite bind_ret. cbn [fst snd].
    apply Forall_app in HS. destruct HS as [_ HS]. apply Forall_app in HS. destruct HS as [HS _].
    rewrite bb_rows_none by (try lia; exact HS). rewrite bind_ret. reflexivity.
Qed.

Lemma bb_rounds_some rounds : forall b st,
  (exists bm, bb_validity b = Some bm /\ bm_rep bm [] st) -> bb_data b = [] -> bb_offsets b = [0%N] ->
  Forall (fun r => N.of_nat (length (concat (somes r))) <= u32_max)%N rounds ->
  exists bm b', bb_validity b = Some bm /\
    bb_rounds b rounds = Ret b' /\ bb_data b' = [] /\ bb_offsets b' = [0%N]
    /\ exists bm', bb_validity b' = Some bm' /\ bm_rounds bm (map validity_of rounds) = Ret bm'.
Proof.
  induction rounds as [|r rounds IH]; intros b st (bm & EV & HR) HD HO HF.
  - exists bm, b. repeat split; auto. exists bm. auto.
  - inversion HF; subst. cbn [bb_rounds bm_rounds map].
    destruct b as [data offs v]; cbn [bb_data bb_offsets bb_validity] in *. subst.
    rewrite bb_rows_some by (cbn [length]; lia).
    destruct (appends_rep (validity_of r) bm [] st HR) as (bm1 & E1 & H1'). rewrite E1, !bind_ret.
    destruct (IH (bb_clear (mk_bin ([] ++ concat (somes r))
                (snoc_offsets [0%N] (N.of_nat (length (@nil N))) (somes r)) (Some bm1)))
                _ (ex_intro _ (bm_clear bm1) (conj eq_refl (clear_rep _ _ _ H1'))) eq_refl eq_refl H2)
      as (bm2 & b' & EV2 & EB & D & O & bm' & EV' & EM).
    cbn in EV2. injection EV2 as <-.
    exists bm, b'. repeat split; auto. exists bm'. split; [exact EV'|].
    rewrite E1, bind_ret. exact EM.
Qed.

Lemma bb_rounds_none rounds :
  Forall (Forall (fun r => is_some r = true)) rounds ->
  Forall (fun r => N.of_nat (length (concat (somes r))) <= u32_max)%N rounds ->
  bb_rounds (bb_new false) rounds = Ret (bb_new false).
Proof.
  intros H HL. induction rounds as [|r rounds IH]; [reflexivity|].
  inversion H; inversion HL; subst.
  cbn [bb_rounds]. unfold bb_new at 1; cbn [new_validity]. rewrite bb_rows_none by (auto; cbn [length]; lia).
  rewrite bind_ret. unfold bb_clear; cbn [bb_offsets bb_validity option_map].
  apply IH; auto.
Qed.

(** ** Boolean buffers *)

Lemma ob_rows_rep rows : forall b nl vbits vst bits st,
  bm_rep (ob_values b) vbits vst -> val_rep (ob_validity b) nl bits st -> rows_allowed nl rows ->
  exists b', ob_append_rows b rows = Ret b'
    /\ bm_rep (ob_values b') (vbits ++ stale_or vst (length vbits) (somes rows)) vst
    /\ (nl = true -> val_rep (ob_validity b') nl (bits ++ stale_or st (length bits) (validity_of rows)) st)
    /\ (nl = false -> ob_validity b' = None)
    /\ ob_len b' = ob_len b + length rows.
Proof.
  induction rows as [|[v|] rows IH]; intros b nl vbits vst bits st HV HR HA.
  - exists b. cbn [ob_append_rows somes validity_of map stale_or length]. rewrite !app_nil_r.
    split; [reflexivity|]. split; [exact HV|]. split; [auto|]. split; [|lia].
    intros ->. destruct (ob_validity b); [destruct HR; discriminate|reflexivity].
  - assert (HA' : rows_allowed nl rows) by (destruct HA as [HA|HA]; [left; exact HA|right; inversion HA; auto]).
    cbn [ob_append_rows somes validity_of map is_some]. unfold ob_append.
    destruct (append_rep _ vbits vst v HV) as (vb & EV & HV'). rewrite EV, bind_ret.
    destruct (ob_validity b) as [bm|] eqn:EB; cbn [validity_append val_rep] in *.
    + destruct HR as [-> HR]. destruct (append_rep bm bits st true HR) as (bm' & E & HR'). rewrite E, !bind_ret.
      destruct (IH (mk_boolb vb (Some bm') (ob_len b + 1)) true _ vst _ st HV' (conj eq_refl HR') HA')
        as (b' & E' & H1 & H2 & H3 & H4).
      exists b'. split; [exact E'|]. cbn [ob_len] in H4.
      rewrite app_length in H1; cbn [length] in H1. rewrite Nat.add_1_r, <- app_assoc in H1.
      split; [exact H1|]. split; [|split; [exact H3|cbn [length]; lia]].
      intros _. specialize (H2 eq_refl). rewrite app_length in H2; cbn [length] in H2.
      rewrite Nat.add_1_r, <- app_assoc in H2. exact H2.
    + subst nl. rewrite !bind_ret.
      destruct (IH (mk_boolb vb None (ob_len b + 1)) false _ vst [] no_stale HV' eq_refl HA')
        as (b' & E' & H1 & H2 & H3 & H4).
      exists b'. split; [exact E'|]. cbn [ob_len] in H4.
      rewrite app_length in H1; cbn [length] in H1. rewrite Nat.add_1_r, <- app_assoc in H1.
      split; [exact H1|]. split; [discriminate|]. split; [exact H3|cbn [length]; lia].
  - assert (nl = true) as -> by (destruct HA as [HA|HA]; [exact HA|inversion HA; discriminate]).
    cbn [ob_append_rows somes validity_of map is_some]. unfold ob_append_null.
    destruct (ob_validity b) as [bm|] eqn:EB; cbn [validity_append_null val_rep] in *; [|discriminate].
    destruct HR as [_ HR]. destruct (append_rep bm bits st false HR) as (bm' & E & HR'). rewrite E, !bind_ret.
    destruct (IH (mk_boolb (ob_values b) (Some bm') (ob_len b + 1)) true vbits vst _ st HV (conj eq_refl HR') (or_introl eq_refl))
      as (b' & E' & H1 & H2 & H3 & H4).
    exists b'. split; [exact E'|]. cbn [ob_len] in H4.
    split; [exact H1|]. split; [|split; [exact H3|cbn [length]; lia]].
    intros _. specialize (H2 eq_refl). rewrite app_length in H2; cbn [length] in H2.
    rewrite Nat.add_1_r, <- app_assoc in H2. exact H2.
Qed.
