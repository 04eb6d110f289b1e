(** Property theorems C07-C15: bitmaps and column buffers. *)
From Verif Require Import Base BaseProofs Spec Buffers Observe BitmapProofs BuffersProofs.
Open Scope nat_scope.

(** C07.  A new bitmap after any appends shows exactly the appended bits
    (length, every position, refusal past the end). *)
Theorem C07_bitmap_sequence : forall bits,
  exists b, bm_appends bm_new bits = Ret b /\ reads_as b bits.
Proof.
  intros bits. destruct (appends_rep bits bm_new [] no_stale rep_new) as (b & E & H).
  exists b. split; [exact E|]. rewrite stale_or_none in H. eapply rep_reads; exact H.
Qed.
Print Assumptions C07_bitmap_sequence.

(** Growth past the initial 1024 bytes really happens for longer sequences. *)
Example C07_witness :
  match bm_appends bm_new (repeat true (8 * 1024 + 3)) with
  | Ret b => length (bm_values b) = 2 * 1024 /\ bm_is_set b (8 * 1024 + 2) = Ret true
             /\ bm_is_set b (8 * 1024 + 3) = Panic PAssert
  | _ => False
  end.
Proof. vm_compute. auto. Qed.

(** C08 is false: a cleared bitmap may show bits from before the clear. *)
Theorem C08_clear_refuted :
  ~ (forall old new, exists b, bm_rounds bm_new [old] = Ret b
       /\ exists b', bm_appends b new = Ret b' /\ reads_as b' new).
Proof.
  intros H. destruct (H [true] [false]) as (b & E & b' & E' & HL & HR).
  vm_compute in E. injection E as <-. vm_compute in E'. injection E' as <-.
  specialize (HR 0). vm_compute in HR. discriminate.
Qed.
Print Assumptions C08_clear_refuted.

(** C08, what holds instead, exactly and for any number of clears: a bit reads
    as set if it was appended set, or if it is among the first 8192 and some
    earlier round set it. *)
Theorem C08_clear_exact : forall rounds bits,
  exists b b', bm_rounds bm_new rounds = Ret b /\ bm_appends b bits = Ret b'
    /\ bm_len b = 0 /\ bm_len b' = length bits
    /\ (forall i, i < length bits ->
          bm_is_set b' i
          = Ret (nth i bits false || ((i <? 8 * 1024) && existsb (fun r => nth i r false) rounds)))
    /\ (forall i, length bits <= i -> bm_is_set b' i = Panic PAssert).
Proof.
  intros rounds bits. destruct (rounds_rep rounds bm_new no_stale rep_new) as (b & E & H).
  destruct (appends_rep bits b [] _ H) as (b' & E' & H').
  exists b, b'. split; [exact E|]. split; [exact E'|].
  split; [exact (proj1 H)|].
  pose proof (rep_reads _ _ _ H') as [HL HR]. cbn [app] in HL, HR. rewrite stale_or_length in HL, HR.
  split; [exact HL|]. split.
  - intros i Hi. rewrite HR. destruct (Nat.ltb_spec i (length bits)); [|lia].
    cbn [length]. rewrite stale_or_nth by exact Hi. cbn [Nat.add].
    destruct rounds; [|reflexivity]. cbn [existsb]. rewrite andb_false_r. reflexivity.
  - intros i Hi. rewrite HR. destruct (Nat.ltb_spec i (length bits)); [lia|reflexivity].
Qed.
Print Assumptions C08_clear_exact.

(** Hence a cleared bitmap is as good as new exactly when no earlier set bit
    sits at a position (below 8192) where a clear bit is appended now. *)
Theorem C08_clear_partial : forall rounds bits,
  (forall i r, i < length bits -> i < 8 * 1024 -> In r rounds -> nth i r false = true -> nth i bits false = true) ->
  exists b b', bm_rounds bm_new rounds = Ret b /\ bm_appends b bits = Ret b' /\ reads_as b' bits.
Proof.
  intros rounds bits HC. destruct (C08_clear_exact rounds bits) as (b & b' & E & E' & _ & HL & H1 & H2).
  exists b, b'. split; [exact E|]. split; [exact E'|]. split; [exact HL|].
  intros i. destruct (Nat.ltb_spec i (length bits)) as [Hi|Hi]; [|apply H2; exact Hi].
  rewrite H1 by exact Hi. f_equal. destruct (nth i bits false) eqn:EB; [reflexivity|]. cbn [orb].
  destruct (i <? 8 * 1024) eqn:EI; [|reflexivity]. apply Nat.ltb_lt in EI. cbn [andb].
  destruct (existsb _ rounds) eqn:EE; [|reflexivity].
  apply existsb_exists in EE. destruct EE as (r & Hr & Hn). rewrite (HC i r Hi EI Hr Hn) in EB. discriminate.
Qed.
Print Assumptions C08_clear_partial.

Example C08_witness :
  match bm_rounds bm_new [[false; true]; [false; false; true]] with
  | Ret b => match bm_appends b [false; false; false; false] with
             | Ret b' => map (bm_is_set b') [0; 1; 2; 3] = [Ret false; Ret true; Ret true; Ret false]
             | _ => False end
  | _ => False
  end.
Proof. vm_compute. reflexivity. Qed.

(** C09 is false: a requested capacity below eight gives a bitmap that cannot
    take a set bit. *)
Theorem C09_with_capacity_refuted :
  ~ (forall cap bits, exists b, bm_appends (bm_with_capacity cap) bits = Ret b /\ reads_as b bits).
Proof.
  intros H. destruct (H 7 [true]) as (b & E & _). vm_compute in E. discriminate.
Qed.
Print Assumptions C09_with_capacity_refuted.

(** C09, exactly: capacity 8 or more works; below 8, any set bit panics, clear
    bits are counted but cannot be read. *)
Theorem C09_with_capacity_exact : forall cap bits,
  (8 <= cap -> exists b, bm_appends (bm_with_capacity cap) bits = Ret b /\ reads_as b bits)
  /\ (cap < 8 -> In true bits -> bm_appends (bm_with_capacity cap) bits = Panic PIndex)
  /\ (cap < 8 -> ~ In true bits ->
        exists b, bm_appends (bm_with_capacity cap) bits = Ret b /\ bm_len b = length bits
          /\ forall i, i < length bits -> bm_is_set b i = Panic PIndex).
Proof.
  intros cap bits. split; [|split].
  - intros H. destruct (appends_rep bits _ [] no_stale (rep_with_capacity cap H)) as (b & E & R).
    exists b. split; [exact E|]. rewrite stale_or_none in R. eapply rep_reads; exact R.
  - intros H HI. unfold bm_with_capacity. rewrite Nat.div_small by exact H. cbn [repeat].
    generalize 0. induction bits as [|[|] bits IH]; intros n; [destruct HI| |].
    + cbn [bm_appends]. unfold bm_append; cbn [bm_len bm_values length].
      rewrite BIT_MASK_nth by apply mod8. rewrite bind_ret.
      destruct (n / 8 =? 0); cbn [resize firstn repeat length app]; unfold idx;
        destruct (n / 8); reflexivity.
    + cbn [bm_appends]. unfold bm_append; cbn [bm_len bm_values length]. rewrite !bind_ret.
      destruct HI as [HI|HI]; [discriminate|].
      destruct (n / 8 =? 0); apply IH; exact HI.
  - intros H HI. unfold bm_with_capacity. rewrite Nat.div_small by exact H. cbn [repeat].
    assert (G : forall n, bm_appends (mk_bitmap [] n) bits = Ret (mk_bitmap [] (n + length bits))).
    { clear H. induction bits as [|[|] bits IH]; intros n.
      - cbn. rewrite Nat.add_0_r. reflexivity.
      - exfalso. apply HI. left; reflexivity.
      - cbn [bm_appends]. unfold bm_append; cbn [bm_len bm_values length]. rewrite !bind_ret.
        replace (if n / 8 =? 0 then resize [] (0 * 2) 0%N else []) with (@nil N) by (destruct (n / 8 =? 0); reflexivity).
        rewrite IH by (intros HI'; apply HI; right; exact HI'). do 2 f_equal. lia. }
    rewrite G. eexists; split; [reflexivity|]. cbn [bm_len Nat.add]. split; [reflexivity|].
    intros i Hi. unfold bm_is_set; cbn [bm_len bm_values].
    destruct (Nat.ltb_spec i (length bits)); [|lia]. unfold idx. destruct (i / 8); reflexivity.
Qed.
Print Assumptions C09_with_capacity_exact.

Example C09_witness :
  bm_appends (bm_with_capacity 7) [false; true] = Panic PIndex
  /\ match bm_appends (bm_with_capacity 9) (repeat true 20) with
     | Ret b => bm_is_set b 19 = Ret true | _ => False end.
Proof. vm_compute. auto. Qed.

(** C10.  For any destination, copying up to the [n]-th set bit is the same as
    appending the bits of the shortest such window one by one, and the returned
    position is just past it.  For a destination that shows [dbits] this never
    panics and shows [dbits ++ w]; and the call panics exactly when too few
    bits are set. *)
Theorem C10_append_from : forall src sbits start n,
  reads_as src sbits ->
  (forall dst w, valid_window sbits start n w ->
     bm_append_from dst src start n
     = let* d := bm_appends dst w in Ret (d, start + length w))
  /\ (forall dbits dst w, bm_appends bm_new dbits = Ret dst -> valid_window sbits start n w ->
     exists d, bm_append_from dst src start n = Ret (d, start + length w) /\ reads_as d (dbits ++ w))
  /\ (forall w w', valid_window sbits start n w -> valid_window sbits start n w' -> w = w')
  /\ (forall dbits dst, bm_appends bm_new dbits = Ret dst ->
        (is_panic (bm_append_from dst src start n) <-> count_true (skipn start sbits) < n)).
Proof.
  intros src sbits start n HR. split; [|split; [|split]].
  - intros dst w HW. exact (append_from_appends dst src sbits start n w HR HW).
  - intros dbits dst w HD HW.
    destruct (appends_rep dbits bm_new [] no_stale rep_new) as (b & E & H). rewrite HD in E. injection E as <-.
    destruct (append_from_ok dst src sbits _ no_stale start n w H HR HW) as (d & E & H').
    exists d. split; [exact E|]. rewrite !stale_or_none in H'. eapply rep_reads; exact H'.
  - intros w w'. apply window_unique.
  - intros dbits dst HD. split.
    + intros [k Hk]. destruct (Nat.lt_ge_cases (count_true (skipn start sbits)) n) as [Hc|Hc]; [exact Hc|].
      exfalso. destruct (Nat.le_gt_cases start (length sbits)) as [Hs|Hs].
      * destruct (window_exists sbits start n Hs Hc) as (w & HW).
        destruct (appends_rep dbits bm_new [] no_stale rep_new) as (b & E & H). rewrite HD in E. injection E as <-.
        destruct (append_from_ok dst src sbits _ no_stale start n w H HR HW) as (d & E & _). congruence.
      * rewrite skipn_all2 in Hc by lia. change (count_true []) with 0 in Hc.
        unfold bm_append_from in Hk. cbn [bm_append_from_loop] in Hk.
        destruct (Nat.ltb_spec 0 n); [lia|]. discriminate.
    + intros Hc. exact (append_from_short dst src sbits start n HR Hc).
Qed.
Print Assumptions C10_append_from.

Example C10_witness :
  valid_window [true; false; true; false; false; true; true] 1 2 [false; true; false; false; true]
  /\ match bm_appends bm_new [true; false; true; false; false; true; true] with
     | Ret src => match bm_append_from bm_new src 1 2 with
                  | Ret (d, pos) => pos = 6 /\ map (bm_is_set d) [0; 1; 4] = [Ret false; Ret true; Ret true]
                  | _ => False end
                  /\ bm_append_from bm_new src 1 4 = Panic PAssert
     | _ => False end.
Proof.
  split.
  - exists [true], [true]. repeat split. right. exists [false; true; false; false]. reflexivity.
  - vm_compute. auto.
Qed.

(** C11.  Fixed-width buffers. *)
Theorem C11_primitive_buffer : forall (T : Type) nullable (rows : list (option T)),
  (rows_allowed nullable rows ->
     exists b, pb_append_rows (pb_new nullable) rows = Ret b
       /\ pb_holds b nullable rows
       /\ pb_num_values b = length rows /\ pb_len b = length (somes rows) /\ pb_is_nullable b = nullable
       /\ (forall p, pb_has_nulls p b = Ret (negb (forallb is_some rows))))
  /\ (~ rows_allowed nullable rows -> pb_append_rows (pb_new nullable) rows = Panic PExplicit).
Proof.
  intros T nl rows. split.
  - intros HA. destruct (pb_new_rows nl rows HA) as (b & E & HV & HR).
    assert (HH : pb_holds b nl rows) by (split; [exact HV|eapply val_rep_shows; eauto]).
    exists b. split; [exact E|]. split; [exact HH|]. exact (pb_holds_counts b nl rows HH).
  - intros HN. destruct nl; [exfalso; apply HN; left; reflexivity|].
    apply pb_rows_none_null. intros HF. apply HN. right; exact HF.
Qed.
Print Assumptions C11_primitive_buffer.

Example C11_witness :
  rows_allowed true [Some 5; None; Some 7; None]
  /\ match pb_append_rows (pb_new true) [Some 5; None; Some 7; None] with
     | Ret b => pb_values b = [5; 7] /\ pb_num_values b = 4 /\ pb_has_nulls Debug b = Ret true
     | _ => False end
  /\ pb_append_rows (pb_new false) [Some 5; None] = Panic PExplicit.
Proof. split; [left; reflexivity|]. vm_compute. auto. Qed.

(** C12.  Binary buffers: the data is the concatenation of the items, the
    offsets delimit them; the counts and validity describe the rows; an append
    panics exactly when the data would exceed 2^32-1 bytes. *)
Theorem C12_binary_buffer : forall nullable (rows : list (option (list N))),
  rows_allowed nullable rows ->
  ((N.of_nat (length (concat (somes rows))) <= 4294967295)%N ->
     exists b, bb_append_rows (bb_new nullable) rows = Ret b
       /\ bb_data b = concat (somes rows)
       /\ nth_error (bb_offsets b) 0 = Some 0%N
       /\ length (bb_offsets b) = S (length (somes rows))
       /\ nth_error (bb_offsets b) (length (somes rows)) = Some (N.of_nat (length (bb_data b)))
       /\ (forall i v p, nth_error (somes rows) i = Some v ->
             exists lo hi, nth_error (bb_offsets b) i = Some lo /\ nth_error (bb_offsets b) (S i) = Some hi
               /\ (lo <= hi)%N
               /\ firstn (N.to_nat hi - N.to_nat lo) (skipn (N.to_nat lo) (bb_data b)) = v
               /\ bb_item_len p b i = Ret (N.of_nat (length v)))
       /\ validity_shows (bb_validity b) nullable rows
       /\ bb_num_values b = length rows /\ bb_len b = length (somes rows) /\ bb_is_nullable b = nullable
       /\ (forall p, bb_has_nulls p b = Ret (negb (forallb is_some rows))))
  /\ ((4294967295 < N.of_nat (length (concat (somes rows))))%N ->
        bb_append_rows (bb_new nullable) rows = Panic PExpect).
Proof.
  intros nl rows HA. split.
  - intros HL. destruct (bb_new_rows nl rows HA HL) as (b & E & HD & HO & HR).
    assert (HS : validity_shows (bb_validity b) nl rows) by (eapply val_rep_shows; eauto).
    exists b. split; [exact E|]. split; [exact HD|].
    split; [rewrite HO, running_nth by lia; reflexivity|].
    split; [rewrite HO; apply running_length|].
    split; [rewrite HO, running_nth by lia; rewrite firstn_all, HD; reflexivity|].
    split.
    + intros i v p Hi. pose proof (bb_item_spec (somes rows) (bb_data b) (bb_offsets b) (bb_validity b) i v p HD HO Hi HL) as H.
      destruct b as [d o w]. exact H.
    + split; [exact HS|]. exact (bb_holds_counts b nl rows (conj HD (conj HO HS))).
  - intros HL. apply (bb_rows_overflow rows (bb_new nl) nl [] no_stale (val_rep_new nl) HA).
    + cbn. lia.
    + exact HL.
Qed.
Print Assumptions C12_binary_buffer.

Example C12_witness :
  match bb_append_rows (bb_new true) [Some [1; 2]; None; Some []; Some [3]]%N with
  | Ret b => bb_data b = [1; 2; 3]%N /\ bb_offsets b = [0; 2; 2; 3]%N /\ bb_num_values b = 4
  | _ => False end.
Proof. vm_compute. auto. Qed.

(** C13.  Boolean buffers. *)
Theorem C13_bool_buffer : forall nullable (rows : list (option bool)),
  rows_allowed nullable rows ->
  exists b, ob_append_rows (ob_new nullable) rows = Ret b
    /\ reads_as (ob_values b) (somes rows)
    /\ validity_shows (ob_validity b) nullable rows
    /\ ob_len b = length rows /\ ob_is_nullable b = nullable
    /\ ob_has_nulls b = negb (forallb is_some rows).
Proof.
  intros nl rows HA.
  destruct (ob_rows_rep rows (ob_new nl) nl [] no_stale [] no_stale rep_new (val_rep_new nl) HA)
    as (b & E & HV & HT & HF & HL).
  cbn [app length] in HV, HT. rewrite !stale_or_none in *.
  exists b. split; [exact E|]. split; [eapply rep_reads; exact HV|].
  assert (HS : validity_shows (ob_validity b) nl rows).
  { destruct nl.
    - eapply val_rep_shows; [exact HA|exact (HT eq_refl)].
    - rewrite (HF eq_refl). split; [reflexivity|]. destruct HA; [discriminate|assumption]. }
  split; [exact HS|]. split; [exact HL|]. split.
  - unfold ob_is_nullable. destruct (ob_validity b); destruct HS as [-> _]; reflexivity.
  - unfold ob_has_nulls. f_equal. rewrite (proj1 HV), HL. cbn [ob_new ob_len Nat.add].
    destruct (forallb is_some rows) eqn:EB.
    + rewrite forallb_forall in EB. apply Nat.eqb_eq. apply all_some_length. apply Forall_forall. exact EB.
    + apply Nat.eqb_neq. intros Z. apply not_all_some_length in Z. rewrite Forall_forall in Z.
      apply forallb_forall in Z. congruence.
Qed.
Print Assumptions C13_bool_buffer.

Example C13_witness :
  match ob_append_rows (ob_new true) [Some true; None; Some false] with
  | Ret b => map (bm_is_set (ob_values b)) [0; 1; 2] = [Ret true; Ret false; Panic PAssert]
             /\ ob_len b = 3 /\ ob_has_nulls b = true
  | _ => False end.
Proof. vm_compute. auto. Qed.

(** C14 is false for nullable buffers and for boolean buffers of any kind. *)
Theorem C14_buffer_clear_refuted :
  ~ (forall old new : list (option N), exists b b',
       pb_rounds (pb_new true) [old] = Ret b /\ pb_append_rows b new = Ret b' /\ pb_holds b' true new)
  /\ ~ (forall old new : list (option (list N)), exists b b',
       bb_rounds (bb_new true) [old] = Ret b /\ bb_append_rows b new = Ret b' /\ bb_holds b' true new)
  /\ ~ (forall old new : list bool, exists b b',
       ob_rounds (ob_new false) [map Some old] = Ret b /\ ob_append_rows b (map Some new) = Ret b'
       /\ reads_as (ob_values b') new).
Proof.
  split; [|split]; intros H.
  - destruct (H [Some 1%N] [None]) as (b & b' & E & E' & _ & HS).
    vm_compute in E. injection E as <-. vm_compute in E'. injection E' as <-.
    destruct HS as [_ [_ HR]]. specialize (HR 0). vm_compute in HR. discriminate.
  - destruct (H [Some []] [None]) as (b & b' & E & E' & _ & _ & HS).
    vm_compute in E. injection E as <-. vm_compute in E'. injection E' as <-.
    destruct HS as [_ [_ HR]]. specialize (HR 0). vm_compute in HR. discriminate.
  - destruct (H [true] [false]) as (b & b' & E & E' & _ & HR).
    vm_compute in E. injection E as <-. vm_compute in E'. injection E' as <-.
    specialize (HR 0). vm_compute in HR. discriminate.
Qed.
Print Assumptions C14_buffer_clear_refuted.

(** Some earlier round had a non-null row at position [i]. *)
Definition stale_row {T} (rounds : list (list (option T))) (i : nat) : bool :=
  (i <? 8 * 1024) && existsb (fun r => nth i (validity_of r) false) rounds.

(** C14, exactly, for nullable fixed-width and binary buffers after any number
    of clears: values, offsets, counts and has-nulls are right; only the
    validity bitmap is wrong, showing a null as non-null where an earlier round
    had a value.  Buffers that are not nullable are as good as new. *)
Theorem C14_buffer_clear_exact :
  (forall (T : Type) (rounds : list (list (option T))) rows,
     exists b b' bm, pb_rounds (pb_new true) rounds = Ret b /\ pb_append_rows b rows = Ret b'
       /\ pb_values b' = somes rows /\ pb_num_values b' = length rows /\ pb_len b' = length (somes rows)
       /\ pb_validity b' = Some bm
       /\ forall i, i < length rows ->
            bm_is_set bm i = Ret (nth i (validity_of rows) false || stale_row rounds i))
  /\ (forall (T : Type) (rounds : list (list (option T))) rows,
       Forall (rows_allowed false) rounds -> rows_allowed false rows ->
       exists b b', pb_rounds (pb_new false) rounds = Ret b /\ pb_append_rows b rows = Ret b'
         /\ pb_append_rows (pb_new false) rows = Ret b' /\ pb_holds b' false rows)
  /\ (forall (rounds : list (list (option (list N)))) rows,
     Forall (fun r => N.of_nat (length (concat (somes r))) <= 4294967295)%N (rows :: rounds) ->
     exists b b' bm, bb_rounds (bb_new true) rounds = Ret b /\ bb_append_rows b rows = Ret b'
       /\ bb_data b' = concat (somes rows) /\ bb_offsets b' = running_offsets 0 (somes rows)
       /\ bb_num_values b' = length rows
       /\ bb_validity b' = Some bm
       /\ forall i, i < length rows ->
            bm_is_set bm i = Ret (nth i (validity_of rows) false || stale_row rounds i))
  /\ (forall (rounds : list (list (option (list N)))) rows,
       Forall (fun r => N.of_nat (length (concat (somes r))) <= 4294967295)%N (rows :: rounds) ->
       Forall (rows_allowed false) rounds -> rows_allowed false rows ->
       exists b b', bb_rounds (bb_new false) rounds = Ret b /\ bb_append_rows b rows = Ret b'
         /\ bb_append_rows (bb_new false) rows = Ret b' /\ bb_holds b' false rows).
Proof.
  assert (AF : forall (T : Type) (rounds : list (list (option T))), Forall (rows_allowed false) rounds ->
            Forall (Forall (fun r => is_some r = true)) rounds).
  { intros T rounds. apply Forall_impl. intros r [H|H]; [discriminate|exact H]. }
  assert (BR : forall rounds rows (xs : list bool), map (fun r => r) rounds = rounds -> length xs = rows ->
     exists b b', bm_rounds bm_new rounds = Ret b /\ bm_appends b xs = Ret b' /\ bm_len b' = rows
       /\ forall i, i < rows -> bm_is_set b' i
            = Ret (nth i xs false || ((i <? 8 * 1024) && existsb (fun r => nth i r false) rounds))).
  { intros rounds rows xs _ <-. destruct (C08_clear_exact rounds xs) as (b & b' & E & E' & _ & HL & H1 & _).
    exists b, b'. auto. }
  assert (SR : forall (T : Type) (rounds : list (list (option T))) i,
     (i <? 8 * 1024) && existsb (fun r => nth i r false) (map validity_of rounds) = stale_row rounds i).
  { intros T rounds i. unfold stale_row. f_equal. induction rounds as [|r rounds IH]; [reflexivity|].
    cbn [map existsb]. rewrite IH. reflexivity. }
  split; [|split; [|split]].
  - intros T rounds rows.
    destruct (BR (map validity_of rounds) (length rows) (validity_of rows) (map_id _) (validity_length rows))
      as (bm & bm' & E & E' & HL & HB).
    exists (mk_prim [] (Some bm)), (mk_prim (somes rows) (Some bm')), bm'.
    assert (ER : pb_rounds (pb_new true) rounds = Ret (mk_prim [] (Some bm))).
    { unfold pb_new; cbn [new_validity]. destruct rounds as [|r rounds].
      - cbn in E |- *. injection E as <-. reflexivity.
      - rewrite pb_rounds_eq by discriminate. rewrite E, bind_ret. reflexivity. }
    split; [exact ER|]. split; [rewrite pb_rows_some, E', bind_ret; reflexivity|].
    split; [reflexivity|]. split; [exact HL|]. split; [reflexivity|]. split; [reflexivity|].
    intros i Hi. rewrite HB by exact Hi. rewrite SR. reflexivity.
  - intros T rounds rows HR HA. exists (pb_new false), (mk_prim (somes rows) None).
    assert (HF : Forall (fun r => is_some r = true) rows) by (destruct HA; [discriminate|assumption]).
    split; [apply pb_rounds_none; apply AF; exact HR|].
    unfold pb_new; cbn [new_validity]. rewrite pb_rows_none by exact HF.
    split; [reflexivity|]. split; [reflexivity|]. split; [reflexivity|]. split; [reflexivity|exact HF].
  - intros rounds rows HF. inversion HF as [|? ? HL HLs]; subst.
    destruct (BR (map validity_of rounds) (length rows) (validity_of rows) (map_id _) (validity_length rows))
      as (bm & bm' & E & E' & HL' & HB).
    destruct (bb_rounds_some rounds (bb_new true) no_stale
                (ex_intro _ bm_new (conj eq_refl rep_new)) eq_refl eq_refl HLs)
      as (bm0 & b0 & EV & EB & D & O & bm1 & EV1 & EM).
    cbn in EV. injection EV as <-. rewrite E in EM. injection EM as <-.
    destruct b0 as [d o v]; cbn [bb_data bb_offsets bb_validity] in *. subst.
    exists (mk_bin [] [0%N] (Some bm)), (mk_bin (concat (somes rows)) (running_offsets 0 (somes rows)) (Some bm')), bm'.
    split; [exact EB|]. split.
    { rewrite bb_rows_some by exact HL. rewrite E', bind_ret. cbn [app length].
      unfold snoc_offsets. change (N.of_nat 0) with 0%N.
      destruct (running_head 0 (somes rows)) as [l El]. rewrite El. reflexivity. }
    split; [reflexivity|]. split; [reflexivity|]. split; [exact HL'|]. split; [reflexivity|].
    intros i Hi. rewrite HB by exact Hi. rewrite SR. reflexivity.
  - intros rounds rows HF HR HA. inversion HF as [|? ? HL HLs]; subst.
    assert (HS : Forall (fun r => is_some r = true) rows) by (destruct HA; [discriminate|assumption]).
    destruct (bb_new_rows false rows HA HL) as (b' & E & D & O & R).
    exists (bb_new false), b'. split; [apply bb_rounds_none; [apply AF; exact HR|exact HLs]|].
    split; [exact E|]. split; [exact E|]. split; [exact D|]. split; [exact O|].
    eapply val_rep_shows; eauto.
Qed.
Print Assumptions C14_buffer_clear_exact.

Example C14_witness :
  match pb_rounds (pb_new true) [[Some 1; Some 2]] with
  | Ret b => match pb_append_rows b [None; Some 3; None] with
             | Ret b' => match pb_validity b' with
                         | Some bm => map (bm_is_set bm) [0; 1; 2] = [Ret true; Ret true; Ret false]
                         | None => False end
             | _ => False end
  | _ => False end.
Proof. vm_compute. reflexivity. Qed.

(** C15.  Bulk copy.  [before ++ R ++ after] are the source rows; [R] ends with
    a non-null row (or is empty).  Copying the non-null items of [R] from the
    position of its first row equals appending the rows [R] one by one, for
    every destination of the same nullability (also one that was cleared).  The
    returned position is just past [R] for nullable buffers and the number of
    items copied otherwise. *)
Theorem C15_bulk_copy :
  (forall (T : Type) (dst src : prim_buf T) nullable before R after,
     pb_holds src nullable (before ++ R ++ after) -> pb_is_nullable dst = nullable ->
     (R = [] \/ exists R' v, R = R' ++ [Some v]) ->
     (N.of_nat (pb_len dst + length (somes R)) < 4294967295)%N ->
     pb_append_from dst src (length (somes before)) (length (somes before) + length (somes R)) (length before)
     = let* b := pb_append_rows dst R in
       Ret (b, if nullable then length before + length R else length (somes R)))
  /\ (forall p dst src nullable before R after,
     bb_holds src nullable (before ++ R ++ after) -> bb_is_nullable dst = nullable ->
     (R = [] \/ exists R' v, R = R' ++ [Some v]) ->
     (N.of_nat (length (bb_data src)) <= 4294967295)%N ->
     last (bb_offsets dst) 0%N = N.of_nat (length (bb_data dst)) ->
     (N.of_nat (length (bb_data dst) + length (concat (somes R))) < 4294967295)%N ->
     (N.of_nat (length (before ++ R ++ after)) < 2 ^ 64)%N ->
     bb_append_from p dst src (length (somes before)) (length (somes before) + length (somes R)) (length before)
     = let* b := bb_append_rows dst R in
       Ret (b, if nullable then length before + length R else length (somes R)))
  /\ (forall (T : Type) (dst src : prim_buf T) start end_ pos,
       pb_is_nullable dst <> pb_is_nullable src -> is_panic (pb_append_from dst src start end_ pos)).
Proof.
  split; [|split].
  - intros T dst src nl before R after. apply pb_append_from_eq.
  - intros p dst src nl before R after. apply bb_append_from_eq.
  - intros T dst src start end_ pos H. unfold pb_append_from.
    unfold slice. destruct ((start <=? end_) && (end_ <=? length (pb_values src))); [|eexists; reflexivity].
    rewrite bind_ret. destruct (_ <? _)%N; [|eexists; reflexivity].
    unfold pb_is_nullable in H. destruct (pb_validity dst), (pb_validity src); try congruence; eexists; reflexivity.
Qed.
Print Assumptions C15_bulk_copy.

(** The copied rows include the nulls before and between the values, not those
    after the last one. *)
Example C15_witness :
  match pb_append_rows (pb_new true) [Some 1; None; Some 2; None; Some 3; None] with
  | Ret src =>
      match pb_append_rows (pb_new true) [Some 9] with
      | Ret dst => match pb_append_from dst src 1 3 1 with
                   | Ret (d, pos) => pb_values d = [9; 2; 3] /\ pb_num_values d = 5 /\ pos = 5
                   | _ => False end
      | _ => False end
  | _ => False end.
Proof. vm_compute. auto. Qed.
