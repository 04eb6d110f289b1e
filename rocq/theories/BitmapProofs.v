From Verif Require Import Base BaseProofs Spec Buffers Observe.
Open Scope nat_scope.

(** ** Bits of a byte vector *)

Definition bit_at (values : list N) (i : nat) : bool :=
  N.testbit (nth (i / 8) values 0%N) (N.of_nat (i mod 8)).

Lemma div8 i : i = 8 * (i / 8) + i mod 8.
Proof. apply Nat.div_mod. lia. Qed.
Lemma mod8 i : i mod 8 < 8.
Proof. apply Nat.mod_upper_bound. lia. Qed.
Lemma div8_lt i n : i < 8 * n -> i / 8 < n.
Proof. intros H. apply Nat.div_lt_upper_bound; lia. Qed.
Lemma div8_le i n : i / 8 < n -> i < 8 * n.
Proof. intros H. pose proof (div8 i). pose proof (mod8 i). lia. Qed.

Lemma BIT_MASK_nth k : k < 8 -> idx BIT_MASK k = Ret (2 ^ N.of_nat k)%N.
Proof. intros H. do 8 (destruct k as [|k]; [reflexivity|]). lia. Qed.

Lemma land_pow2 b k : negb (N.land b (2 ^ k) =? 0)%N = N.testbit b k.
Proof.
  destruct (N.testbit b k) eqn:E.
  - destruct (N.eqb_spec (N.land b (2 ^ k)) 0) as [Z|Z]; [|reflexivity].
    assert (N.testbit (N.land b (2 ^ k)) k = false) by (rewrite Z; apply N.bits_0).
    rewrite N.land_spec, E, N.pow2_bits_true in H. discriminate.
  - replace (N.land b (2 ^ k)) with 0%N; [reflexivity|].
    symmetry. apply N.bits_inj_0. intros j. rewrite N.land_spec.
    destruct (N.eq_dec j k) as [->|Hj].
    + rewrite E. reflexivity.
    + rewrite N.pow2_bits_false by auto. apply andb_false_r.
Qed.

Lemma nth_error_nth' {A} (l : list A) i d : i < length l -> nth_error l i = Some (nth i l d).
Proof. intros H. apply nth_error_nth'. exact H. Qed.

Lemma idx_nth {A} (l : list A) i d : i < length l -> idx l i = Ret (nth i l d).
Proof. intros H. apply idx_some. apply nth_error_nth'. exact H. Qed.

Lemma nth_set_nth {A} (l : list A) i j x d : i < length l ->
  nth j (set_nth l i x) d = if j =? i then x else nth j l d.
Proof.
  intros H. destruct (Nat.eqb_spec j i) as [->|Hne].
  - apply nth_error_nth. apply set_nth_eq; exact H.
  - pose proof (set_nth_neq l i j x ltac:(auto)) as E.
    destruct (nth_error l j) eqn:E2.
    + rewrite (nth_error_nth _ _ d E). symmetry. apply nth_error_nth; exact E2.
    + apply nth_error_None in E. apply nth_error_None in E2. rewrite !nth_overflow by lia. reflexivity.
Qed.

Lemma bit_at_app_zeros l n i : bit_at (l ++ repeat 0%N n) i = bit_at l i.
Proof.
  unfold bit_at. destruct (Nat.lt_ge_cases (i / 8) (length l)).
  - rewrite app_nth1 by lia. reflexivity.
  - rewrite app_nth2 by lia. rewrite (nth_overflow l) by lia.
    rewrite nth_repeat. reflexivity.
Qed.

Lemma bit_at_or l i j : i / 8 < length l ->
  bit_at (set_nth l (i / 8) (N.lor (nth (i / 8) l 0) (2 ^ N.of_nat (i mod 8)))%N) j
  = bit_at l j || (j =? i).
Proof.
  intros H. unfold bit_at. rewrite nth_set_nth by exact H.
  destruct (Nat.eqb_spec (j / 8) (i / 8)) as [E|E].
  - rewrite N.lor_spec, <- E. f_equal. pose proof (div8 i). pose proof (div8 j).
    destruct (Nat.eqb_spec j i) as [->|Hne].
    + apply N.pow2_bits_true.
    + apply N.pow2_bits_false. intros Z. apply Hne. lia.
  - destruct (Nat.eqb_spec j i) as [->|Hne]; [congruence|]. rewrite orb_false_r. reflexivity.
Qed.

Lemma bit_at_repeat n i : bit_at (repeat 0%N n) i = false.
Proof. unfold bit_at. rewrite nth_repeat. apply N.bits_0. Qed.

Lemma bit_at_firstn l n i : bit_at (firstn n l) i = (i <? 8 * n) && bit_at l i.
Proof.
  unfold bit_at. pose proof (div8 i). pose proof (mod8 i).
  destruct (Nat.ltb_spec i (8 * n)) as [Hi|Hi].
  - assert (i / 8 < n) by (apply div8_lt; exact Hi).
    destruct (Nat.lt_ge_cases (i / 8) (length l)).
    + rewrite (nth_error_nth (firstn n l) (i / 8) 0%N (x := nth (i / 8) l 0%N)); [reflexivity|].
      rewrite nth_error_firstn_lt by lia. apply nth_error_nth'; lia.
    + rewrite !nth_overflow; [reflexivity | lia | rewrite firstn_length; lia].
  - rewrite (nth_overflow (firstn n l)) by (rewrite firstn_length; lia).
    rewrite N.bits_0. reflexivity.
Qed.

Lemma bit_at_oob l i : 8 * length l <= i -> bit_at l i = false.
Proof.
  intros H. unfold bit_at. pose proof (div8 i). pose proof (mod8 i).
  rewrite nth_overflow by lia. apply N.bits_0.
Qed.

(** ** Representation: readable bits and stale bits *)

(** [b] reads as [bits]; the bits beyond its length, which [clear] may have
    left behind, are [stale]. *)
Definition bm_rep (b : bitmap) (bits : list bool) (stale : nat -> bool) : Prop :=
  bm_len b = length bits
  /\ 0 < length (bm_values b)
  /\ length bits <= 8 * length (bm_values b)
  /\ forall i, bit_at (bm_values b) i = if i <? length bits then nth i bits false else stale i.

Lemma rep_reads b bits st : bm_rep b bits st -> reads_as b bits.
Proof.
  intros (HL & Hpos & Hcap & HB). split; [exact HL|]. intros i. unfold bm_is_set. rewrite HL.
  destruct (Nat.ltb_spec i (length bits)) as [Hi|Hi]; [|reflexivity].
  assert (i / 8 < length (bm_values b)) by (apply div8_lt; lia).
  rewrite (idx_nth _ _ 0%N) by assumption. rewrite bind_ret.
  rewrite BIT_MASK_nth by apply mod8. rewrite bind_ret. rewrite land_pow2.
  fold (bit_at (bm_values b) i). rewrite HB. destruct (Nat.ltb_spec i (length bits)); [reflexivity|lia].
Qed.

Lemma reads_as_inj b bits bits' : reads_as b bits -> reads_as b bits' -> bits = bits'.
Proof.
  intros [L1 H1] [L2 H2]. apply list_eq_nth_error; [lia|].
  intros i Hi. specialize (H1 i). specialize (H2 i). rewrite H1 in H2.
  destruct (Nat.ltb_spec i (length bits)); [|lia]. destruct (Nat.ltb_spec i (length bits')); [|lia].
  rewrite !(nth_error_nth' _ _ false) by lia. congruence.
Qed.

Definition no_stale : nat -> bool := fun _ => false.

Lemma rep_new : bm_rep bm_new [] no_stale.
Proof.
  unfold bm_new, bm_rep; cbn [bm_values bm_len]. rewrite repeat_length.
  repeat split; try (unfold INITIAL_BITMAP_CAP; simpl; lia).
  intros i. rewrite bit_at_repeat. destruct (i <? length []); [destruct i|]; reflexivity.
Qed.

Lemma rep_with_capacity cap : 8 <= cap -> bm_rep (bm_with_capacity cap) [] no_stale.
Proof.
  intros H. unfold bm_with_capacity, bm_rep; cbn [bm_values bm_len]. rewrite repeat_length.
  assert (1 <= cap / 8) by (apply Nat.div_le_lower_bound; lia).
  repeat split; try (cbn [length]; lia).
  intros i. rewrite bit_at_repeat. destruct (i <? length []); [destruct i|]; reflexivity.
Qed.

Lemma append_rep b bits st x : bm_rep b bits st ->
  exists b', bm_append b x = Ret b' /\ bm_rep b' (bits ++ [x || st (length bits)]) st.
Proof.
  intros (HL & Hpos & Hcap & HB). unfold bm_append.
  set (i := bm_len b / 8).
  set (vs := if i =? length (bm_values b) then resize (bm_values b) (length (bm_values b) * 2) 0%N
             else bm_values b).
  assert (Hvs : length (bm_values b) <= length vs /\ (forall j, bit_at vs j = bit_at (bm_values b) j)
                /\ i < length vs).
  { subst vs. destruct (Nat.eqb_spec i (length (bm_values b))) as [E|E].
    - rewrite resize_length. rewrite resize_grow by lia.
      split; [lia|]. split; [|lia]. intros j; apply bit_at_app_zeros.
    - split; [lia|]. split; [reflexivity|].
      assert (i <= length (bm_values b)); [|lia]. subst i. rewrite HL.
      apply Nat.div_le_upper_bound; lia. }
  destruct Hvs as (Hge & Hbits & Hi).
  assert (Hlen8 : length bits + 1 <= 8 * length vs).
  { pose proof (div8 (bm_len b)). pose proof (mod8 (bm_len b)). fold i in H. lia. }
  destruct x; cbn [orb].
  - rewrite BIT_MASK_nth by apply mod8. rewrite bind_ret.
    rewrite (idx_nth _ _ 0%N) by exact Hi. rewrite bind_ret.
    rewrite upd_ok by exact Hi. rewrite bind_ret.
    eexists; split; [reflexivity|].
    unfold bm_rep; cbn [bm_values bm_len]. rewrite set_nth_length, app_length. cbn [length].
    repeat split; try lia.
    intros j. subst i. rewrite bit_at_or by exact Hi. rewrite Hbits, HB, HL.
    destruct (Nat.ltb_spec j (length bits)), (Nat.ltb_spec j (length bits + 1)); try lia.
    + rewrite app_nth1 by lia. destruct (Nat.eqb_spec j (length bits)); [lia|]. apply orb_false_r.
    + assert (j = length bits) by lia. subst j. rewrite Nat.eqb_refl, orb_true_r.
      rewrite app_nth2 by lia. rewrite Nat.sub_diag. reflexivity.
    + destruct (Nat.eqb_spec j (length bits)); [lia|]. apply orb_false_r.
  - rewrite bind_ret. eexists; split; [reflexivity|].
    unfold bm_rep; cbn [bm_values bm_len]. rewrite app_length. cbn [length].
    repeat split; try lia.
    intros j. rewrite Hbits, HB.
    destruct (Nat.ltb_spec j (length bits)), (Nat.ltb_spec j (length bits + 1)); try lia.
    + rewrite app_nth1 by lia. reflexivity.
    + assert (j = length bits) by lia. subst j.
      rewrite app_nth2 by lia. rewrite Nat.sub_diag. reflexivity.
    + reflexivity.
Qed.

(** What a list of appended bits reads back as when stale bits shine through. *)
Fixpoint stale_or (st : nat -> bool) (k : nat) (xs : list bool) : list bool :=
  match xs with
  | [] => []
  | x :: r => (x || st k) :: stale_or st (S k) r
  end.

Lemma stale_or_length st k xs : length (stale_or st k xs) = length xs.
Proof. revert k; induction xs as [|x xs IH]; intros k; simpl; auto. Qed.

Lemma stale_or_none k xs : stale_or no_stale k xs = xs.
Proof.
  revert k; induction xs as [|x xs IH]; intros k; simpl; auto.
  rewrite IH. unfold no_stale. rewrite orb_false_r. reflexivity.
Qed.

Lemma stale_or_nth st k xs i : i < length xs ->
  nth i (stale_or st k xs) false = nth i xs false || st (k + i).
Proof.
  revert k i; induction xs as [|x xs IH]; intros k [|i] H; simpl in *; try lia.
  - rewrite Nat.add_0_r. reflexivity.
  - rewrite IH by lia. rewrite Nat.add_succ_r. reflexivity.
Qed.

Lemma appends_rep xs : forall b bits st, bm_rep b bits st ->
  exists b', bm_appends b xs = Ret b' /\ bm_rep b' (bits ++ stale_or st (length bits) xs) st.
Proof.
  induction xs as [|x xs IH]; intros b bits st H; simpl.
  - exists b. rewrite app_nil_r. auto.
  - destruct (append_rep b bits st x H) as (b1 & E1 & H1). rewrite E1, bind_ret.
    destruct (IH b1 _ st H1) as (b2 & E2 & H2). exists b2. split; [exact E2|].
    rewrite app_length in H2. cbn [length] in H2. rewrite Nat.add_1_r in H2.
    rewrite <- app_assoc in H2. exact H2.
Qed.

Lemma clear_rep b bits st : bm_rep b bits st ->
  bm_rep (bm_clear b) [] (fun i => (i <? 8 * INITIAL_BITMAP_CAP) && (if i <? length bits then nth i bits false else st i)).
Proof.
  intros (HL & Hpos & Hcap & HB).
  unfold bm_clear, bm_rep; cbn [bm_values bm_len]. rewrite resize_length.
  repeat split; try (unfold INITIAL_BITMAP_CAP; simpl; lia).
  intros i. rewrite <- HB. unfold resize. rewrite bit_at_app_zeros.
  rewrite bit_at_firstn. simpl (length []).
  destruct (i <? 0) eqn:E; [apply Nat.ltb_lt in E; lia|]. reflexivity.
Qed.

(** ** Copying a window *)

Lemma count_true_cons x l : count_true (x :: l) = b2n x + count_true l.
Proof. unfold count_true; destruct x; simpl; auto. Qed.

Lemma count_true_app l1 l2 : count_true (l1 ++ l2) = count_true l1 + count_true l2.
Proof. unfold count_true. rewrite filter_app, app_length. reflexivity. Qed.

Lemma count_true_le l : count_true l <= length l.
Proof. induction l as [|x l IH]; [reflexivity|]. rewrite count_true_cons. destruct x; simpl; lia. Qed.

Definition ends_set (w : list bool) : Prop := w = [] \/ exists w', w = w' ++ [true].

Lemma ends_set_cons x w : ends_set (x :: w) -> ends_set w /\ 0 < count_true (x :: w).
Proof.
  intros [H|[w' H]]; [discriminate|]. destruct w' as [|y w'].
  - inversion H; subst. split; [left; reflexivity|]. rewrite count_true_cons. simpl. lia.
  - inversion H; subst. split; [right; eexists; reflexivity|].
    rewrite count_true_cons, count_true_app. change (count_true [true]) with 1. lia.
Qed.

Lemma reads_is_set b bits before x after : reads_as b bits -> bits = before ++ x :: after ->
  bm_is_set b (length before) = Ret x.
Proof.
  intros [_ H] ->. rewrite H. rewrite app_length. cbn [length].
  destruct (Nat.ltb_spec (length before) (length before + S (length after))); [|lia].
  rewrite app_nth2 by lia. rewrite Nat.sub_diag. reflexivity.
Qed.

Lemma append_from_loop_ok w : forall fuel src sbits before after dst items n,
  reads_as src sbits -> sbits = before ++ w ++ after -> ends_set w ->
  items + count_true w = n -> length w < fuel ->
  bm_append_from_loop fuel dst src items (length before) n
  = let* dst' := bm_appends dst w in Ret (dst', length before + length w).
Proof.
  induction w as [|x w IH]; intros fuel src sbits before after dst items n HR HS HE HN HF.
  - destruct fuel as [|fuel]; [simpl in HF; lia|]. cbn [bm_append_from_loop].
    change (count_true []) with 0 in HN. destruct (Nat.ltb_spec items n); [lia|].
    cbn [length bm_appends]. rewrite bind_ret, Nat.add_0_r. reflexivity.
  - destruct fuel as [|fuel]; [simpl in HF; lia|]. cbn [bm_append_from_loop].
    destruct (ends_set_cons x w HE) as [HE' Hpos].
    destruct (Nat.ltb_spec items n); [|lia].
    rewrite (reads_is_set src sbits before x (w ++ after) HR HS). rewrite bind_ret.
    rewrite count_true_cons in HN. cbn [bm_appends]. rewrite bind_assoc. apply bind_ext. intros d1.
    pose proof (IH fuel src sbits (before ++ [x]) after d1 (items + b2n x) n HR) as E.
    rewrite app_length in E. cbn [length] in E. rewrite E; auto.
    + cbn [length]. apply bind_ext. intros d2. do 2 f_equal. lia.
    + rewrite HS. rewrite <- app_assoc. reflexivity.
    + lia.
    + simpl in HF; lia.
Qed.

Lemma append_from_appends dst src sbits start n w :
  reads_as src sbits -> valid_window sbits start n w ->
  bm_append_from dst src start n = let* dst' := bm_appends dst w in Ret (dst', start + length w).
Proof.
  intros HR (before & after & HS & Hst & HC & HE). unfold bm_append_from. subst start.
  eapply append_from_loop_ok; eauto.
  destruct HR as [HL _]. rewrite HL, HS, !app_length. lia.
Qed.

Lemma append_from_ok dst src sbits bits st start n w :
  bm_rep dst bits st -> reads_as src sbits -> valid_window sbits start n w ->
  exists dst', bm_append_from dst src start n = Ret (dst', start + length w)
    /\ bm_rep dst' (bits ++ stale_or st (length bits) w) st.
Proof.
  intros HD HR HW. destruct (appends_rep w dst bits st HD) as (d & E & H).
  exists d. split; [|exact H]. rewrite (append_from_appends dst src sbits start n w HR HW).
  rewrite E. reflexivity.
Qed.

Lemma bm_append_panics b x : is_ret (bm_append b x) \/ bm_append b x = Panic PIndex.
Proof.
  unfold bm_append. destruct x; [|left; eexists; reflexivity].
  rewrite BIT_MASK_nth by apply mod8. rewrite bind_ret.
  set (vs := if _ : bool then _ else _). unfold idx.
  destruct (nth_error vs (bm_len b / 8)) eqn:E; [|right; reflexivity].
  rewrite bind_ret. unfold upd.
  assert (bm_len b / 8 < length vs) by (apply nth_error_Some; congruence).
  destruct (Nat.ltb_spec (bm_len b / 8) (length vs)); [|lia].
  left; eexists; reflexivity.
Qed.

Lemma append_from_loop_short rest : forall fuel src sbits before dst items n,
  reads_as src sbits -> sbits = before ++ rest ->
  items + count_true rest < n -> length rest < fuel ->
  is_panic (bm_append_from_loop fuel dst src items (length before) n).
Proof.
  induction rest as [|x rest IH]; intros fuel src sbits before dst items n HR HS HN HF.
  - destruct fuel as [|fuel]; [simpl in HF; lia|]. cbn [bm_append_from_loop].
    change (count_true []) with 0 in HN. destruct (Nat.ltb_spec items n); [|lia].
    destruct HR as [_ HR]. rewrite HR. subst sbits. rewrite app_nil_r, Nat.ltb_irrefl.
    eexists; reflexivity.
  - destruct fuel as [|fuel]; [simpl in HF; lia|]. cbn [bm_append_from_loop].
    rewrite count_true_cons in HN.
    destruct (Nat.ltb_spec items n); [|lia].
    rewrite (reads_is_set src sbits before x rest HR HS). rewrite bind_ret.
    destruct (bm_append_panics dst x) as [[d1 E1]|E1]; rewrite E1; [|eexists; reflexivity].
    rewrite bind_ret.
    replace (length before + 1) with (length (before ++ [x])) by (rewrite app_length; reflexivity).
    eapply IH; eauto.
    + rewrite <- app_assoc. exact HS.
    + lia.
    + simpl in HF; lia.
Qed.

Lemma append_from_short dst src sbits start n :
  reads_as src sbits -> count_true (skipn start sbits) < n ->
  is_panic (bm_append_from dst src start n).
Proof.
  intros HR HC. unfold bm_append_from.
  destruct (Nat.le_gt_cases start (length sbits)) as [Hs|Hs].
  - replace start with (length (firstn start sbits)) by (rewrite firstn_length; lia).
    eapply append_from_loop_short with (rest := skipn start sbits); eauto.
    + symmetry. apply firstn_skipn.
    + destruct HR as [HL _]. rewrite HL, skipn_length. lia.
  - cbn [bm_append_from_loop]. rewrite skipn_all2 in HC by lia. change (count_true []) with 0 in HC.
    destruct (Nat.ltb_spec 0 n); [|lia]. destruct HR as [_ HR]. rewrite HR.
    destruct (Nat.ltb_spec start (length sbits)); [lia|]. eexists; reflexivity.
Qed.

Lemma window_exists bits start n : start <= length bits -> n <= count_true (skipn start bits) ->
  exists w, valid_window bits start n w.
Proof.
  intros Hs Hc.
  assert (H : forall l n, n <= count_true l ->
     exists w after, l = w ++ after /\ count_true w = n /\ ends_set w).
  { induction l as [|x l IH]; intros m Hm.
    - change (count_true []) with 0 in Hm. exists [], []. repeat split; [unfold count_true; simpl; lia|left; reflexivity].
    - rewrite count_true_cons in Hm. destruct (Nat.eq_dec m 0) as [->|Hz].
      + exists [], (x :: l). repeat split. left; reflexivity.
      + destruct (IH (m - b2n x)) as (w & after & -> & Hw & He); [lia|].
        exists (x :: w), after. repeat split.
        * rewrite count_true_cons. destruct x; simpl in *; lia.
        * right. destruct He as [->|[w' ->]].
          -- change (count_true []) with 0 in Hw. destruct x; simpl in *; [|lia]. exists []. reflexivity.
          -- exists (x :: w'). reflexivity. }
  destruct (H _ _ Hc) as (w & after & E & Hw & He).
  exists w, (firstn start bits), after. repeat split; auto.
  - rewrite <- E. symmetry. apply firstn_skipn.
  - rewrite firstn_length; lia.
Qed.

Lemma window_unique bits start n w w' :
  valid_window bits start n w -> valid_window bits start n w' -> w = w'.
Proof.
  intros (b1 & a1 & E1 & L1 & C1 & H1) (b2 & a2 & E2 & L2 & C2 & H2).
  rewrite E1 in E2. assert (b1 = b2 /\ w ++ a1 = w' ++ a2) as [_ E].
  { clear - E2 L1 L2. subst start. revert b2 L2 E2. induction b1 as [|x b1 IH]; intros [|y b2] HL HE;
      simpl in *; try lia; auto. inversion HE; subst. destruct (IH b2) as [-> ->]; auto. }
  clear - C1 C2 H1 H2 E. revert n w' C1 C2 H1 H2 E.
  induction w as [|x w IH]; intros n w' C1 C2 H1 H2 E.
  - destruct w' as [|y w']; auto. destruct (ends_set_cons y w' H2) as [_ Hp].
    change (count_true []) with 0 in C1. lia.
  - destruct w' as [|y w'].
    + destruct (ends_set_cons x w H1) as [_ Hp]. change (count_true []) with 0 in C2. lia.
    + inversion E; subst y. f_equal. rewrite count_true_cons in C1, C2.
      destruct (ends_set_cons x w H1) as [H1' _]. destruct (ends_set_cons x w' H2) as [H2' _].
      apply (IH (n - b2n x)); auto; lia.
Qed.

(** ** Several rounds *)

Lemma rounds_rep rounds : forall b st, bm_rep b [] st ->
  exists b', bm_rounds b rounds = Ret b'
    /\ bm_rep b' [] (fun i => match rounds with [] => st i
                              | _ => (i <? 8 * INITIAL_BITMAP_CAP) && (st i || existsb (fun r => nth i r false) rounds) end).
Proof.
  induction rounds as [|xs rounds IH]; intros b st H; cbn [bm_rounds existsb].
  - exists b. auto.
  - destruct (appends_rep xs b [] st H) as (b1 & E1 & H1). rewrite E1, bind_ret.
    apply clear_rep in H1. cbn [app length] in H1.
    destruct (IH _ _ H1) as (b2 & E2 & H2). exists b2. split; [exact E2|].
    destruct H2 as (A & B & C & D). repeat split; auto. intros i. rewrite D.
    destruct (i <? length []) eqn:E; [apply Nat.ltb_lt in E; simpl in E; lia|].
    rewrite stale_or_length.
    assert (X : (if i <? length xs then nth i (stale_or st 0 xs) false else st i) = st i || nth i xs false).
    { destruct (Nat.ltb_spec i (length xs)).
      - rewrite stale_or_nth by lia. apply orb_comm.
      - rewrite (nth_overflow xs) by lia. rewrite orb_false_r. reflexivity. }
    rewrite X. 
    destruct rounds as [|r rounds]; [cbn [existsb]; rewrite orb_false_r; reflexivity|].
    destruct (i <? 8 * INITIAL_BITMAP_CAP); [|reflexivity]. cbn [andb]. rewrite orb_assoc. reflexivity.
Qed.
