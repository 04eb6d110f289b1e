(** Whole histories of the fixed-width encoder. *)
From Verif Require Import Base BaseProofs Spec SpecRows Varint VarintProofs Buffers Observe BitmapProofs BuffersProofs
  Rle Sink PrimEnc ReadBlock ObserveEnc RowsProofs BlockProofs PrimEncProofs.
Open Scope nat_scope.

Definition sum_len {T} (l : list (list T)) : nat := length (concat l).

Lemma total_app a b : total (a ++ b) = (total a + total b)%N.
Proof. induction a as [|n a IH]; [reflexivity|]. cbn [app total fold_right]. fold (total (a ++ b)) (total a). lia. Qed.

Lemma rest_spec {T} cap (rows : list (option T)) : 0 < cap ->
  num_vals (rest_of cap rows) < cap /\ ends_some (rest_of cap rows).
Proof. intros H. apply leftover_spec; lia. Qed.

Lemma trim_length {T} (rows : list (option T)) : length (trim rows) <= length rows.
Proof.
  pose proof (f_equal (@length _) (take_drop (num_vals rows) rows)) as E. rewrite app_length in E. unfold trim. lia.
Qed.

Lemma take_length {T} k (rows : list (option T)) : length (take_vals k rows) <= length rows.
Proof. pose proof (f_equal (@length _) (take_drop k rows)) as E. rewrite app_length in E. lia. Qed.

Lemma rest_length {T} cap (rows : list (option T)) : 0 < cap -> length (rest_of cap rows) <= length rows.
Proof.
  intros H. pose proof (f_equal (@length _) (cut_rest cap rows H)) as E. rewrite app_length in E.
  pose proof (trim_length rows). lia.
Qed.

Section Run.
Context {S : Type} (wr : sink_fn S) (p : profile) (sz : nat).

(** A history of encodes on an encoder that holds back [pending]. *)
Lemma pe_encodes_ok B cap nl : 2 <= sz -> fits sz B cap -> (0 < B < 2 ^ 32)%N -> (N.of_nat sz < 2 ^ 31)%N ->
  p = Debug \/ N.of_nat (cap * sz) = B ->
  forall bufs rowss e pending rows s,
  Forall2 (fun b r => pb_holds b nl r) bufs rowss ->
  pe_inv B nl e pending rows -> num_vals pending <= cap -> (cap = 1 -> pending = []) ->
  (N.of_nat (length pending + sum_len rowss) <= 2 ^ 32 - 2)%N ->
  let run := col_run nl (N.of_nat (cap * sz) =? B)%N cap pending rowss in
  match emits wr sz nl rows (fst run) s with
  | Ret (rows', s', Ok _) =>
      match snd run with
      | Some pending' => exists e', pe_encodes wr p sz e bufs s = Ret (e', s', Ok tt)
          /\ pe_inv B nl e' pending' rows' /\ num_vals pending' <= cap /\ length pending' <= length pending + sum_len rowss
      | None => pe_encodes wr p sz e bufs s = Panic POverflow
      end
  | Ret (rows', s', Err) => exists e', pe_encodes wr p sz e bufs s = Ret (e', s', Err)
  | Panic k => pe_encodes wr p sz e bufs s = Panic k
  | NoFuel => False
  end.
Proof.
  intros Hs HF HB Hz Hp. assert (Hc : 0 < cap) by (destruct HF; destruct cap; cbn in *; lia).
  change (2 ^ 32)%N with 4294967296%N in *.
  assert (Hc32 : (N.of_nat cap < 4294967296)%N) by (destruct HF; nia).
  change (4294967296 - 2)%N with 4294967294%N.
  induction bufs as [|b bufs IH]; intros rowss e pending rows s HH HI HC H1 HL; inversion HH as [|? r ? rowss' Hb Hbs]; subst; clear HH; cbn [col_run pe_encodes].
  - cbn [fst snd emits]. exists e. split; [reflexivity|]. split; [exact HI|]. split; [exact HC|lia].
  - assert (EL : sum_len (r :: rowss') = length r + sum_len rowss') by (unfold sum_len; cbn [concat]; apply app_length).
    rewrite EL in *. destruct pending as [|x pend0].
    + cbn [length Nat.add] in *.
      assert (LB : pb_len b = num_vals r) by (apply pb_holds_counts in Hb; tauto).
      pose proof (pe_encode_empty wr p sz B cap nl (Datatypes.S (pb_len b)) e rows b r s) as PE.
      change (2 ^ 32)%N with 4294967296%N in PE. change (4294967296 - 2)%N with 4294967294%N in PE.
      assert (B1 : (N.of_nat (length r) <= 4294967294)%N) by lia. assert (B2 : num_vals r < Datatypes.S (pb_len b)) by lia.
      specialize (PE ltac:(lia) HF Hc Hc32 Hz HI Hb B1 B2).
      cbn [fst snd]. rewrite emits_app. unfold sink_fn in *.
      destruct (emits wr sz nl rows (counted nl 0 (cut cap r)) s) as [[[rows1 s1] res1]|k|]; cbn [bind]; [| |contradiction].
      * destruct PE as (e1 & -> & I1). rewrite bind_ret. destruct res1 as [[]|].
        -- pose proof (rest_spec cap r Hc) as [R1 R2]. pose proof (rest_length cap r Hc) as R3.
           specialize (IH rowss' e1 (rest_of cap r) rows1 s1 Hbs I1 ltac:(lia)).
           specialize (IH ltac:(intros ->; destruct (rest_of 1 r) as [|y l] eqn:E; [reflexivity|]; pose proof (nonempty_num _ R2 ltac:(discriminate)); lia)).
           specialize (IH ltac:(lia)). cbn zeta in IH.
           destruct (emits wr sz nl rows1 _ s1) as [[[rows2 s2] [[]|]]|k|]; auto.
           destruct (snd (col_run _ _ _ _ _)) as [pending'|]; auto.
           destruct IH as (e' & E & I & A & L). exists e'. split; [exact E|]. split; [exact I|]. split; [exact A|lia].
        -- eexists; reflexivity.
      * rewrite PE. reflexivity.
    + set (pending := x :: pend0) in *. assert (HN : pending <> []) by discriminate.
      assert (C2 : 2 <= cap). { destruct cap as [|[|cap]]; try lia. specialize (H1 eq_refl). congruence. }
      clearbody pending.
      assert (PP : 0 < num_vals pending) by (apply nonempty_num; [apply HI|exact HN]).
      assert (FULL : (num_vals pending <? cap) || (N.of_nat (cap * sz) =? B)%N = true /\ (N.of_nat (num_vals pending * sz) <= B)%N
                  \/ ((num_vals pending <? cap) || (N.of_nat (cap * sz) =? B)%N = false /\ (B < N.of_nat (num_vals pending * sz))%N)).
      { destruct HF as [F1 F2]. destruct (Nat.ltb_spec (num_vals pending) cap) as [L|L].
        - left. split; [reflexivity|]. nia.
        - assert (num_vals pending = cap) as -> by lia. destruct (N.eqb_spec (N.of_nat (cap * sz)) B); cbn; [left|right]; split; auto; lia. }
      destruct FULL as [[-> HR]|[-> HR]].
      * destruct (pe_encode_pending wr p sz B cap nl (Datatypes.S (pb_len b)) e pending rows b r s Hs HF) as (e1 & -> & I1); auto.
        { change (2 ^ 32)%N with 4294967296%N. lia. }
        rewrite bind_ret.
        pose proof (take_length (min (cap - num_vals pending) (num_vals r)) r) as TL.
        specialize (IH rowss' e1 _ rows s Hbs I1). rewrite app_length, num_vals_app, num_take in IH.
        specialize (IH ltac:(lia) ltac:(lia) ltac:(lia)). cbn zeta in IH.
        destruct (emits wr sz nl rows _ s) as [[[rows2 s2] [[]|]]|k|]; auto.
        destruct (snd (col_run _ _ _ _ _)) as [pending'|]; auto.
        destruct IH as (e' & E & I & A & L). exists e'. split; [exact E|]. split; [exact I|]. split; [exact A|lia].
      * destruct Hp as [Hp|Hp].
        -- cbn [fst snd emits].
           rewrite (pe_encode_overfull wr p sz B nl _ e pending rows b s Hp HI HN HR). reflexivity.
        -- exfalso. destruct HF. nia.
Qed.
End Run.

(** The blocks [collect] gets. *)
Fixpoint labelled (sz : nat) (nl : bool) (rows : N) (items : list (nat * list (option N))) : list (N * list N) :=
  match items with
  | [] => []
  | (n, w) :: rest => (rows + N.of_nat n - 1, prim_block sz nl w)%N :: labelled sz nl (rows + N.of_nat n) rest
  end.

Lemma emits_collect sz nl items : forall rows acc,
  emits collect sz nl rows items acc
  = if (rows + total (map fst items) <=? u32_max)%N || match items with [] => true | _ => false end
    then Ret (rows + total (map fst items), acc ++ labelled sz nl rows items, Ok tt)%N
    else Panic PExpect.
Proof.
  induction items as [|[n w] items IH]; intros rows acc; cbn [emits].
  - rewrite orb_true_r, app_nil_r. cbn. rewrite N.add_0_r. reflexivity.
  - rewrite orb_false_r. cbn [map fst total fold_right]. fold (total (map fst items)).
    unfold pe_add_rows.
    destruct (N.leb_spec (N.of_nat n) u32_max); cbn [bind];
      [|destruct (N.leb_spec (rows + (N.of_nat n + total (map fst items))) u32_max); [lia|reflexivity]].
    destruct (N.leb_spec (rows + N.of_nat n) u32_max); cbn [bind];
      [|destruct (N.leb_spec (rows + (N.of_nat n + total (map fst items))) u32_max); [lia|reflexivity]].
    unfold collect at 1. rewrite IH. rewrite N.add_assoc. cbn [labelled]. rewrite <- app_assoc. cbn [app].
    destruct (N.leb_spec (rows + N.of_nat n + total (map fst items)) u32_max); cbn [orb]; [reflexivity|].
    destruct items; [|reflexivity]. exfalso. cbn in *. lia.
Qed.

Lemma labelled_app sz nl a : forall rows b,
  labelled sz nl rows (a ++ b) = labelled sz nl rows a ++ labelled sz nl (rows + total (map fst a)) b.
Proof.
  induction a as [|[n w] a IH]; intros rows b; cbn [app labelled map fst total fold_right].
  - rewrite N.add_0_r. reflexivity.
  - rewrite IH. fold (total (map fst a)). rewrite N.add_assoc. reflexivity.
Qed.

Lemma labelled_ids sz nl items : forall rows, map fst (labelled sz nl rows items) = row_ids rows (map fst items).
Proof. induction items as [|[n w] items IH]; intros rows; cbn; [reflexivity|]. rewrite IH. reflexivity. Qed.

Lemma labelled_blocks sz nl items : forall rows, map snd (labelled sz nl rows items) = map (prim_block sz nl) (map snd items).
Proof. induction items as [|[n w] items IH]; intros rows; cbn; [reflexivity|]. rewrite IH. reflexivity. Qed.

(** Every block of a run is a piece of the rows that can be read back. *)
Lemma counted_snd {T} nl (ws : list (list (option T))) : forall pos, map snd (counted nl pos ws) = ws.
Proof. induction ws as [|w ws IH]; intros pos; cbn; [reflexivity|]. rewrite IH. reflexivity. Qed.

Lemma col_run_blocks {T} nl exact cap : 0 < cap -> forall rowss (pending : list (option T)),
  Forall (rows_allowed nl) rowss ->
  let run := col_run nl exact cap pending rowss in
  Forall (fun w => num_vals w = cap /\ ends_some w /\ rows_allowed nl w /\ length w <= sum_len rowss
            /\ forall v, In v (somes w) -> In v (somes (concat rowss))) (map snd (fst run))
  /\ match snd run with
     | Some pending' => forall v, In v (somes pending') -> In v (somes pending) \/ In v (somes (concat rowss))
     | None => True
     end.
Proof.
  intros Hc. induction rowss as [|r rowss IH]; intros pending HA; cbn [col_run]; cbn zeta.
  - split; [constructor|]. cbn. auto.
  - inversion HA as [|? ? HA1 HA2]; subst. specialize (IH).
    assert (EL : sum_len (r :: rowss) = length r + sum_len rowss) by (unfold sum_len; cbn [concat]; apply app_length).
    assert (MONO : forall l, Forall (fun w => num_vals w = cap /\ ends_some w /\ rows_allowed nl w /\ length w <= sum_len rowss
            /\ forall v, In v (somes w) -> In v (somes (concat rowss))) l ->
       Forall (fun w => num_vals w = cap /\ ends_some w /\ rows_allowed nl w /\ length w <= sum_len (r :: rowss)
            /\ forall v, In v (somes w) -> In v (somes (concat (r :: rowss)))) l).
    { intros l. apply Forall_impl. intros w (A & B & C & D & E). repeat (split; [assumption||lia|]).
      intros v Hv. cbn [concat]. rewrite somes_app, in_app_iff. auto. }
    destruct pending as [|x pend0].
    + cbn [fst snd]. destruct (IH (rest_of cap r) HA2) as [I1 I2]. split.
      * rewrite map_app, counted_snd. apply Forall_app. split; [|apply MONO; exact I1].
        pose proof (windows_spec (S (num_vals r)) cap r) as W. fold (cut cap r) in W.
        pose proof (cut_rest cap r Hc) as CR. pose proof (take_drop (num_vals r) r) as TD. fold (trim r) in TD.
        rewrite <- CR in TD. rewrite Forall_forall in *. intros w Hw. destruct (W w Hw) as [W1 W2].
        apply in_split in Hw. destruct Hw as (l1 & l2 & E). rewrite E in TD. rewrite concat_app in TD. cbn [concat] in TD.
        rewrite <- !app_assoc in TD.
        split; [exact W1|]. split; [exact W2|]. split; [|split].
        -- rewrite <- TD in HA1. apply allowed_app in HA1. destruct HA1 as [_ HA1]. apply allowed_app in HA1. tauto.
        -- pose proof (f_equal (@length _) TD) as L. rewrite !app_length in L. lia.
        -- intros v Hv. cbn [concat]. rewrite somes_app, in_app_iff. left. rewrite <- TD, !somes_app, !in_app_iff. auto.
      * destruct (snd (col_run _ _ _ _ _)); [|exact I]. intros v Hv. right. cbn [concat]. rewrite somes_app, in_app_iff.
        destruct (I2 v Hv) as [H|H]; [|auto]. left.
        pose proof (cut_rest cap r Hc) as CR. pose proof (take_drop (num_vals r) r) as TD. fold (trim r) in TD.
        rewrite <- TD, <- CR, !somes_app, !in_app_iff. auto.
    + destruct ((num_vals (x :: pend0) <? cap) || exact).
      * destruct (IH ((x :: pend0) ++ take_vals (min (cap - num_vals (x :: pend0)) (num_vals r)) r) HA2) as [I1 I2].
        split; [apply MONO; exact I1|]. destruct (snd (col_run _ _ _ _ _)); [|exact I].
        intros v Hv. cbn [concat]. rewrite (somes_app r), in_app_iff. destruct (I2 v Hv) as [H|H]; [|auto].
        rewrite somes_app in H. apply in_app_iff in H. destruct H as [H|H]; [auto|]. right. left.
        rewrite <- (take_drop (min (cap - num_vals (x :: pend0)) (num_vals r)) r), somes_app, in_app_iff. auto.
      * cbn. split; [constructor|exact I].
Qed.

Lemma col_run_allowed {T} nl exact cap : 0 < cap -> forall rowss (pending : list (option T)) run held,
  Forall (rows_allowed nl) rowss -> rows_allowed nl pending ->
  col_run nl exact cap pending rowss = (run, Some held) -> rows_allowed nl held.
Proof.
  intros Hc. induction rowss as [|r rowss IH]; intros pending run held HA HP HR; cbn [col_run] in HR.
  - injection HR as _ <-. exact HP.
  - inversion HA as [|? ? HA1 HA2]; subst. destruct pending as [|x pend0].
    + cbn zeta in HR. destruct (col_run nl exact cap (rest_of cap r) rowss) as [run' h'] eqn:ER. cbn [fst snd] in HR.
      injection HR as _ ->. apply (IH _ _ _ HA2) in ER; [exact ER|].
      pose proof (take_drop (num_vals r) r) as TD. fold (trim r) in TD. rewrite <- (cut_rest cap r Hc) in TD.
      rewrite <- TD in HA1. apply allowed_app in HA1. destruct HA1 as [HA1 _]. apply allowed_app in HA1. tauto.
    + destruct ((num_vals (x :: pend0) <? cap) || exact); [|discriminate].
      apply (IH _ _ _ HA2) in HR; [exact HR|]. apply allowed_app. split; [exact HP|apply allowed_take; exact HA1].
Qed.
