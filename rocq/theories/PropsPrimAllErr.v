(** Properties C30, C31 and C32 for every fixed-width column: nulls or not, every
    width, block size and build (raw/primitive_enc.rs). *)
From Verif Require Import Base BaseProofs Spec SpecRows SpecBin Varint VarintProofs Buffers Observe BitmapProofs BuffersProofs
  Rle RleTrackProofs PropsRle Sink PrimEnc ReadBlock ObserveEnc RowsProofs BlockProofs PrimEncProofs PrimRunProofs BinEncProofs
  PropsPrim PropsPrimRows PropsPrimIds PropsPrimErr PropsPrimAny PropsPrimAll.
Open Scope nat_scope.

(** Flushing, from any state that a history of encodes can reach. *)
Lemma pe_flush_all {S} (wr : sink_fn S) p sz B nl e past held rows s :
  0 < sz -> (N.of_nat sz < 2 ^ 31)%N -> pe_has B nl e past held rows -> (N.of_nat (length held) <= 2 ^ 32)%N ->
  match emits wr sz nl rows (flush_block (seen nl past held)) s with
  | Ret (rows', s', res) => exists e', pe_flush wr p sz e s = Ret (e', s', res) /\ pe_has B nl e' past held rows'
  | Panic k => pe_flush wr p sz e s = Panic k
  | NoFuel => False
  end.
Proof.
  intros Hs Hz I LH. change (2 ^ 32)%N with 4294967296%N in *. change (2 ^ 31)%N with 2147483648%N in *.
  assert (HS : num_vals held <= length held) by apply somes_length_le.
  assert (HE : ends_some held) by apply I.
  destruct (seen_spec nl past held HE) as (S1 & S2 & S3 & S4).
  pose proof (pe_has_len _ _ _ _ _ _ I) as [HL0 _]. unfold pe_flush. rewrite HL0. destruct held as [|x h0] eqn:EH.
  - assert (seen nl past [] = (@nil (option N))) as -> by (unfold seen; destruct nl; reflexivity).
    cbn [flush_block emits num_vals somes length Nat.ltb Nat.leb]. eexists; split; [reflexivity|exact I].
  - rewrite <- EH in *. assert (HN : held <> []) by (rewrite EH; discriminate). clear EH x h0.
    pose proof (nonempty_num held HE HN) as HP. destruct (Nat.ltb_spec 0 (num_vals held)); [|lia].
    pose proof (pe_write_held wr p sz B nl e past held rows s Hs I HN) as PW.
    change (2 ^ 32)%N with 4294967296%N in PW.
    specialize (PW LH ltac:(unfold u64_lim; rewrite Nat2N.inj_mul; nia)). cbn zeta in PW.
    assert (EF : flush_block (seen nl past held) = [(length (seen nl past held), seen nl past held)]).
    { destruct (seen nl past held) eqn:E; [|reflexivity]. exfalso. unfold num_vals in HP. rewrite <- S1 in HP. cbn in HP. lia. }
    rewrite EF. unfold sink_fn in *. destruct (emits wr sz nl _ [_] _) as [[[rows' s'] res]|k|]; [| |contradiction].
    + destruct PW as (e2 & v & -> & I2 & _). rewrite bind_ret. eexists. destruct res as [[]|]; (split; [reflexivity|exact I2]).
    + rewrite PW. reflexivity.
Qed.

(** What a history of encodes does with a sink that accepts everything. *)
Lemma encodes_all_collect p sz B cap nl bufs rowss :
  0 < sz -> (N.of_nat sz < 2 ^ 31)%N -> (0 < B < 2 ^ 32)%N ->
  (B <= N.of_nat (cap * sz) < B + N.of_nat sz)%N ->
  Forall2 (fun b rows => pb_holds b nl rows) bufs rowss -> (total_rows rowss <= 2 ^ 32 - 2)%N ->
  let run := col_all nl (checks p) sz B cap [] [] rowss in
  if (total (map fst (fst run)) <=? u32_max)%N then
    match snd run with
    | Some (past, held) => exists e, pe_encodes collect p sz (pe_new B nl) bufs [] = Ret (e, labelled sz nl 0 (fst run), Ok tt)
        /\ pe_has B nl e past held (total (map fst (fst run))) /\ (N.of_nat (length held) <= 2 ^ 32 - 2)%N
    | None => pe_encodes collect p sz (pe_new B nl) bufs [] = Panic POverflow
    end
  else pe_encodes collect p sz (pe_new B nl) bufs [] = Panic PExpect.
Proof.
  intros Hs Hz HB HF HH HT. change (2 ^ 32 - 2)%N with 4294967294%N in *. unfold total_rows in HT. fold (sum_len rowss) in HT.
  pose proof (pe_encodes_all collect p sz B cap nl Hs HF HB Hz bufs rowss (pe_new B nl) [] [] 0%N [] HH (pe_has_new B nl)) as PE.
  change (2 ^ 32 - 2)%N with 4294967294%N in PE. cbn [length Nat.add] in PE. specialize (PE HT). cbn zeta in PE |- *.
  set (run := col_all nl (checks p) sz B cap [] [] rowss) in *.
  rewrite emits_collect in PE. rewrite N.add_0_l in PE.
  destruct (N.leb_spec (total (map fst (fst run))) u32_max) as [L|L]; cbn [orb app] in PE.
  - destruct (snd run) as [[past held]|]; [|exact PE]. destruct PE as (e & E & I & LH). exists e. split; [exact E|]. split; [exact I|lia].
  - destruct (fst run) as [|i items]; [cbn in L; unfold u32_max in L; lia|exact PE].
Qed.

(** ** C31: when a column panics *)

(** The run of a column, with the final flush, and [None] if overflows are
    detected and a buffer arrives while more than a block is held back. *)
Definition all_blocks {T} (nl checked : bool) (sz : nat) (B : N) (cap : nat) (rowss : list (list (option T))) : option (list (nat * list (option T))) :=
  let run := col_all nl checked sz B cap [] [] rowss in
  match snd run with
  | Some (past, held) => Some (fst run ++ flush_block (seen nl past held))
  | None => None
  end.

(** C31 for every column of fewer than 2^32-1 rows: it panics exactly when the
    rows counted pass 2^32-1, or when overflows are detected and a buffer arrives
    while more than a block is held back; otherwise it succeeds. *)
Theorem C31_every_column_exact :
  forall p sz B cap nl bufs rowss,
  0 < sz -> (N.of_nat sz < 2 ^ 31)%N -> (0 < B < 2 ^ 32)%N ->
  (B <= N.of_nat (cap * sz) < B + N.of_nat sz)%N ->
  Forall2 (fun b rows => pb_holds b nl rows) bufs rowss -> (total_rows rowss <= 2 ^ 32 - 2)%N ->
  match all_blocks nl (checks p) sz B cap rowss with
  | Some blocks =>
      if (total (map fst blocks) <=? u32_max)%N then exists written, pe_column p sz B nl bufs = Ret (written, Ok tt)
      else pe_column p sz B nl bufs = Panic PExpect
  | None => exists k, pe_column p sz B nl bufs = Panic k /\ (k = POverflow \/ k = PExpect)
  end.
Proof.
  intros p sz B cap nl bufs rowss Hs Hz HB HF HH HT.
  pose proof (encodes_all_collect p sz B cap nl bufs rowss Hs Hz HB HF HH HT) as X. cbn zeta in X.
  unfold all_blocks. set (run := col_all nl (checks p) sz B cap [] [] rowss) in *. unfold pe_column, pe_finish.
  destruct (N.leb_spec (total (map fst (fst run))) u32_max) as [L|L].
  - destruct (snd run) as [[past held]|]; [|rewrite X; exists POverflow; auto].
    destruct X as (e & -> & I & LH). rewrite bind_ret.
    pose proof (pe_flush_all collect p sz B nl e past held _ (labelled sz nl 0 (fst run)) Hs Hz I) as PF.
    change (2 ^ 32 - 2)%N with 4294967294%N in *. change (2 ^ 32)%N with 4294967296%N in PF. specialize (PF ltac:(lia)).
    rewrite emits_collect in PF. rewrite map_app, total_app.
    destruct (N.leb_spec (total (map fst (fst run)) + total (map fst (flush_block (seen nl past held)))) u32_max) as [L2|L2]; cbn [orb] in PF.
    + destruct PF as (e2 & -> & _). eexists; reflexivity.
    + destruct (flush_block (seen nl past held)) eqn:EF; [cbn in L2; lia|]. rewrite PF. reflexivity.
  - rewrite X. cbn [bind]. destruct (snd run) as [[past held]|]; [|eauto].
    rewrite map_app, total_app. destruct (N.leb_spec (total (map fst (fst run)) + total (map fst (flush_block (seen nl past held)))) u32_max); [lia|reflexivity].
Qed.
Print Assumptions C31_every_column_exact.

(** When the second kind of panic is impossible. *)
Lemma col_all_some {T} nl checked sz B cap : 0 < sz -> checked = false \/ N.of_nat (cap * sz) = B -> forall rowss past (held : list (option T)),
  num_vals held <= cap \/ checked = false -> 0 < cap -> exists past' held', snd (col_all nl checked sz B cap past held rowss) = Some (past', held').
Proof.
  intros Hs HX. induction rowss as [|r rowss IH]; intros past held HH Hc; cbn [col_all].
  - eexists _, _; reflexivity.
  - assert (RS : forall l : list (option T), num_vals (rest_of cap l) <= cap) by (intros l; pose proof (rest_spec cap l Hc) as [? _]; lia).
    destruct held as [|x h0].
    + cbn [fst snd]. apply IH; [left; apply RS|exact Hc].
    + set (held := x :: h0) in *. clearbody held. cbn zeta.
      assert (LC : (B <? N.of_nat (num_vals held * sz))%N && checked = false).
      { destruct checked; [|apply andb_false_r]. destruct HX as [?|HX]; [discriminate|]. destruct HH as [HH|?]; [|discriminate].
        rewrite andb_true_r. apply N.ltb_ge. rewrite <- HX. nia. }
      rewrite LC. destruct (_ <? B)%N.
      * apply IH; [|exact Hc]. destruct HX as [?|HX]; [auto|]. destruct HH as [HH|?]; [|auto]. left.
        assert (LB : (B <? N.of_nat (num_vals held * sz))%N = false) by (apply N.ltb_ge; rewrite <- HX; nia). rewrite LB.
        rewrite num_vals_app, num_take by lia. lia.
      * cbn [fst snd]. apply IH; [left; apply RS|exact Hc].
Qed.

(** The counted rows of a column without nulls are its rows. *)
Lemma col_all_count_false {T} checked sz B cap : 0 < cap -> forall rowss past (held : list (option T)),
  Forall (rows_allowed false) rowss -> ends_some held ->
  let run := col_all false checked sz B cap past held rowss in
  (total (map fst (fst run)) + N.of_nat (match snd run with Some (_, h) => length h | None => 0 end) <= N.of_nat (length held + sum_len rowss))%N.
Proof.
  intros Hc. induction rowss as [|r rowss IH]; intros past held HA HE; cbn [col_all]; cbn zeta.
  - cbn [fst snd map total fold_right]. lia.
  - inversion HA as [|? ? HR HA']; subst.
    assert (EL : sum_len (r :: rowss) = length r + sum_len rowss) by (unfold sum_len; cbn [concat]; apply app_length).
    assert (CT : forall pos (l : list (option T)), (total (map fst (counted false pos (cut cap l))) + N.of_nat (length (rest_of cap l)) <= N.of_nat (length l))%N).
    { intros pos l. rewrite counted_false, map_map. cbn [fst]. rewrite total_lengths.
      pose proof (f_equal (@length _) (cut_rest cap l Hc)) as E. rewrite app_length in E. pose proof (trim_length l). lia. }
    destruct held as [|x h0].
    + cbn [fst snd length Nat.add]. pose proof (rest_spec cap r Hc) as [_ RE]. specialize (IH past _ HA' RE). cbn zeta in IH.
      rewrite map_app, total_app. specialize (CT 0 r). lia.
    + set (held := x :: h0) in *. clearbody held.
      destruct ((B <? N.of_nat (num_vals held * sz))%N && checked). { cbn [fst snd map total fold_right]. lia. }
      set (k := if (B <? N.of_nat (num_vals held * sz))%N then num_vals r else min (cap - num_vals held) (num_vals r)) in *.
      assert (KB : k <= num_vals r) by (unfold k; destruct (_ <? _)%N; lia). clearbody k.
      assert (HWE : ends_some (held ++ take_vals k r)).
      { assert (EW : ends_some (take_vals k r)) by (apply take_ends; exact KB). destruct (take_vals k r); [rewrite app_nil_r; exact HE|]. apply ends_app; [exact EW|discriminate]. }
      assert (LR : length r = length (take_vals k r) + length (drop_vals k r)) by (rewrite <- app_length, take_drop; reflexivity).
      destruct (_ <? B)%N.
      * specialize (IH past _ HA' HWE). cbn zeta in IH. rewrite app_length in IH. lia.
      * cbn [fst snd map]. set (more := drop_vals k r) in *. pose proof (rest_spec cap more Hc) as [_ RE].
        specialize (IH ((held ++ take_vals k r) :: past) _ HA' RE). cbn zeta in IH.
        cbn [total fold_right]. fold (total (map fst (counted false (length (take_vals k r)) (cut cap more) ++ fst (col_all false checked sz B cap ((held ++ take_vals k r) :: past) (rest_of cap more) rowss)))).
        rewrite map_app, total_app. specialize (CT (length (take_vals k r)) more).
        destruct (seen_spec false past (held ++ take_vals k r) HWE) as (_ & _ & S3 & _). rewrite app_length in S3. lia.
Qed.

(** ... and with nulls at most the triangular number of its rows. *)
Lemma col_all_tri {T} checked sz B cap : 0 < cap -> forall rowss past (held : list (option T)), ends_some held ->
  let run := col_all true checked sz B cap past held rowss in
  (2 * total (map fst (fst run)) + tri (match snd run with Some (_, h) => length h | None => 0 end) <= tri (length held + sum_len rowss))%N.
Proof.
  intros Hc. induction rowss as [|r rowss IH]; intros past held HE; cbn [col_all]; cbn zeta.
  - cbn [fst snd map total fold_right sum_len concat length]. rewrite Nat.add_0_r. lia.
  - assert (EL : sum_len (r :: rowss) = length r + sum_len rowss) by (unfold sum_len; cbn [concat]; apply app_length).
    assert (CT : forall pos (l : list (option T)),
      (2 * total (map fst (counted true pos (cut cap l))) + tri pos <= tri (pos + length (concat (cut cap l))))%N
      /\ length (concat (cut cap l)) + length (rest_of cap l) <= length l).
    { intros pos l. split.
      - apply counted_tri. eapply Forall_impl; [|apply windows_spec]. cbn. intros w [W _] ->. unfold num_vals in W. cbn in W. lia.
      - pose proof (f_equal (@length _) (cut_rest cap l Hc)) as E. rewrite app_length in E. pose proof (trim_length l). lia. }
    destruct held as [|x h0].
    + cbn [fst snd length Nat.add]. pose proof (rest_spec cap r Hc) as [_ RE]. specialize (IH past _ RE). cbn zeta in IH.
      rewrite map_app, total_app. destruct (CT 0 r) as [C1 C2]. change (tri 0) with 0%N in C1. cbn [Nat.add] in C1.
      set (a := length (concat (cut cap r))) in *. set (b := length (rest_of cap r)) in *.
      pose proof (tri_add a (b + sum_len rowss)). pose proof (tri_mono (a + (b + sum_len rowss)) (sum_len (r :: rowss)) ltac:(lia)). lia.
    + set (held := x :: h0) in *. assert (HN : 0 < length held) by (unfold held; cbn; lia). clearbody held.
      destruct ((B <? N.of_nat (num_vals held * sz))%N && checked). { cbn [fst snd map total fold_right]. unfold tri at 1. lia. }
      set (k := if (B <? N.of_nat (num_vals held * sz))%N then num_vals r else min (cap - num_vals held) (num_vals r)) in *.
      assert (KB : k <= num_vals r) by (unfold k; destruct (_ <? _)%N; lia). clearbody k.
      assert (HWE : ends_some (held ++ take_vals k r)).
      { assert (EW : ends_some (take_vals k r)) by (apply take_ends; exact KB). destruct (take_vals k r); [rewrite app_nil_r; exact HE|]. apply ends_app; [exact EW|discriminate]. }
      assert (LR : length r = length (take_vals k r) + length (drop_vals k r)) by (rewrite <- app_length, take_drop; reflexivity).
      destruct (_ <? B)%N.
      * specialize (IH past _ HWE). cbn zeta in IH. rewrite app_length in IH.
        eapply N.le_trans; [exact IH|]. apply tri_mono. lia.
      * cbn [fst snd map]. set (more := drop_vals k r) in *. pose proof (rest_spec cap more Hc) as [_ RE].
        specialize (IH ((held ++ take_vals k r) :: past) _ RE). cbn zeta in IH.
        cbn [total fold_right]. fold (total (map fst (counted true (length (take_vals k r)) (cut cap more) ++ fst (col_all true checked sz B cap ((held ++ take_vals k r) :: past) (rest_of cap more) rowss)))).
        rewrite map_app, total_app. destruct (CT (length (take_vals k r)) more) as [C1 C2].
        destruct (seen_spec true past (held ++ take_vals k r) HWE) as (_ & _ & S3 & _). rewrite app_length in S3.
        set (h := length held) in *. set (t := length (take_vals k r)) in *. set (a := length (concat (cut cap more))) in *.
        set (b := length (rest_of cap more)) in *. set (n := sum_len rowss) in *.
        set (q := length (seen true past (held ++ take_vals k r))) in *.
        pose proof (tri_add (h + t + a) (b + n)) as TA. pose proof (tri_mono (h + t + a + (b + n)) (h + sum_len (r :: rowss)) ltac:(lia)) as TM.
        assert (TQ : (2 * N.of_nat q + tri (t + a) - tri t <= tri (h + t + a))%N).
        { assert (N.of_nat q <= N.of_nat h + N.of_nat t)%N by lia. assert (1 <= N.of_nat h)%N by lia. unfold tri. nia. }
        assert (TT : (tri t <= tri (t + a))%N) by (apply tri_mono; lia).
        lia.
Qed.

(** C31: columns never panic, whatever the width of the values, if overflows go
    unnoticed or the block size is a multiple of the width, up to 2^32-2 rows
    without nulls and 92681 with nulls. *)
Theorem C31_every_width_partial :
  forall p sz B cap nl bufs rowss,
  0 < sz -> (N.of_nat sz < 2 ^ 31)%N -> (0 < B < 2 ^ 32)%N ->
  (B <= N.of_nat (cap * sz) < B + N.of_nat sz)%N ->
  p = Release \/ N.of_nat (cap * sz) = B ->
  Forall2 (fun b rows => pb_holds b nl rows) bufs rowss ->
  (total_rows rowss <= if nl then 92681 else 2 ^ 32 - 2)%N ->
  exists written, pe_column p sz B nl bufs = Ret (written, Ok tt).
Proof.
  intros p sz B cap nl bufs rowss Hs Hz HB HF HX HH HT.
  assert (Hc : 0 < cap) by (destruct HF; destruct cap; cbn in *; lia).
  assert (HT2 : (total_rows rowss <= 2 ^ 32 - 2)%N) by (destruct nl; [change (2 ^ 32 - 2)%N with 4294967294%N; lia|exact HT]).
  pose proof (C31_every_column_exact p sz B cap nl bufs rowss Hs Hz HB HF HH HT2) as X. unfold all_blocks in X.
  assert (HY : checks p = false \/ N.of_nat (cap * sz) = B) by (destruct HX as [->|HX]; auto).
  destruct (col_all_some nl (checks p) sz B cap Hs HY rowss [] [] (or_introl (Nat.le_0_l cap)) Hc) as (past & held & E).
  cbn zeta in X. rewrite E in X.
  assert (HA : Forall (rows_allowed nl) rowss).
  { clear -HH. induction HH as [|b r bufs rowss H _ IH]; constructor; auto. eapply holds_allowed; eauto. }
  pose proof (col_all_blocks nl (checks p) sz B cap Hc rowss [] [] HA ltac:(right; constructor) ltac:(left; reflexivity)) as CB.
  cbn zeta in CB. rewrite E in CB. destruct CB as [_ (CE & _)].
  destruct (seen_spec nl past held CE) as (_ & _ & S3 & _).
  assert (FB : (total (map fst (flush_block (seen nl past held))) <= N.of_nat (length held))%N).
  { destruct (seen nl past held); [cbn; lia|]. cbn [flush_block map fst total fold_right]. lia. }
  unfold total_rows in HT. fold (sum_len rowss) in HT.
  assert (L : (total (map fst (fst (col_all nl (checks p) sz B cap [] [] rowss) ++ flush_block (seen nl past held))) <= u32_max)%N).
  { rewrite map_app, total_app. unfold u32_max. destruct nl.
    - pose proof (col_all_tri (checks p) sz B cap Hc rowss [] [] ltac:(left; reflexivity)) as CT. cbn zeta in CT. rewrite E in CT.
      cbn [length Nat.add] in CT. assert (TB : (tri (sum_len rowss) <= 92681 * 92682)%N) by (unfold tri; nia). change (92681 * 92682)%N with 8589860442%N in TB.
      assert (2 * N.of_nat (length held) <= tri (length held))%N by (unfold tri; nia). lia.
    - pose proof (col_all_count_false (checks p) sz B cap Hc rowss [] [] HA ltac:(left; reflexivity)) as CT. cbn zeta in CT. rewrite E in CT.
      cbn [length Nat.add] in CT. change (2 ^ 32 - 2)%N with 4294967294%N in HT. lia. }
  apply N.leb_le in L. rewrite L in X. exact X.
Qed.
Print Assumptions C31_every_width_partial.

(** Values of one byte with nulls; values of four bytes with a block size of 6
    without overflow checks, where the same column panics with them. *)
Example C31_every_column_witness :
  let v (n : N) := Some n in
  let words := [[v 1; v 2; v 3]; [v 4; None; v 5]; [None; v 6; v 7; v 8]; [v 9]]%N in
  (exists written, pe_column_rows Debug 1 2 true words = Ret (written, Ok tt))
  /\ (exists written, pe_column_rows Release 4 6 true words = Ret (written, Ok tt))
  /\ all_blocks true true 4 6 2 words = None /\ pe_column_rows Debug 4 6 true words = Panic POverflow.
Proof. split; [eexists; vm_compute; reflexivity|]. split; [eexists; vm_compute; reflexivity|]. vm_compute. split; reflexivity. Qed.

(** ** C30: when the row identifiers are right *)

Lemma row_ids_right {T} (blocks : list (nat * list T)) : Forall (fun b => 0 < fst b) blocks -> forall from,
  (forall i id, nth_error (row_ids from (map fst blocks)) i = Some id -> (id + 1 = from + N.of_nat (length (concat (firstn (S i) (map snd blocks)))))%N)
  <-> Forall (fun b => fst b = length (snd b)) blocks.
Proof.
  induction 1 as [|[n w] blocks Hn _ IH]; intros from; cbn [map fst snd row_ids].
  - split; [constructor|]. intros _ [|i] id; discriminate.
  - cbn [fst] in Hn. split.
    + intros H. pose proof (H 0 _ eq_refl) as H0. cbn [firstn concat] in H0. rewrite app_nil_r in H0. constructor; [cbn [fst snd]; lia|].
      apply (IH (from + N.of_nat n)%N). intros i id E. specialize (H (S i) id E).
      replace (firstn (S (S i)) (w :: map snd blocks)) with (w :: firstn (S i) (map snd blocks)) in H by reflexivity.
      cbn [concat] in H. rewrite app_length in H. lia.
    + intros H. inversion H as [|? ? H1 H2]; subst. cbn [fst snd] in H1. pose proof (proj2 (IH (from + N.of_nat n)%N) H2) as H3.
      intros [|i] id E; cbn [nth_error] in E.
      * injection E as <-. cbn [firstn concat]. rewrite app_nil_r. lia.
      * specialize (H3 i id E). replace (firstn (S (S i)) (w :: map snd blocks)) with (w :: firstn (S i) (map snd blocks)) by reflexivity.
        cbn [concat]. rewrite app_length. lia.
Qed.

Lemma counted_pos {T} nl (ws : list (list (option T))) : Forall (fun w => w <> []) ws -> forall pos,
  Forall (fun b => 0 < fst b) (counted nl pos ws).
Proof.
  induction 1 as [|w ws Hw _ IH]; intros pos; cbn [counted]; constructor; [|apply IH]. cbn [fst].
  assert (0 < length w) by (destruct w; [congruence|cbn; lia]). destruct nl; lia.
Qed.

Lemma seen_nonempty {T} nl past (held : list (option T)) : ends_some held -> held <> [] -> 0 < length (seen nl past held).
Proof.
  intros HE HN. destruct (seen_spec nl past held HE) as (S1 & _). pose proof (nonempty_num held HE HN) as HP.
  destruct (seen nl past held); [unfold num_vals in HP; rewrite <- S1 in HP; cbn in HP; lia|cbn; lia].
Qed.

Lemma col_all_pos {T} nl checked sz B cap : 0 < cap -> forall rowss past (held : list (option T)), ends_some held ->
  let run := col_all nl checked sz B cap past held rowss in
  Forall (fun b => 0 < fst b) (fst run) /\ match snd run with Some (_, h) => ends_some h | None => True end.
Proof.
  intros Hc. induction rowss as [|r rowss IH]; intros past held HE; cbn [col_all]; cbn zeta.
  - cbn [fst snd]. split; [constructor|exact HE].
  - destruct held as [|x h0].
    + cbn [fst snd]. pose proof (rest_spec cap r Hc) as [_ RE]. specialize (IH past _ RE). cbn zeta in IH. destruct IH as [I1 I2].
      split; [|exact I2]. apply Forall_app. split; [apply counted_pos, cut_nonempty; exact Hc|exact I1].
    + set (held := x :: h0) in *. assert (HN : held <> []) by discriminate. clearbody held.
      destruct ((B <? N.of_nat (num_vals held * sz))%N && checked). { cbn [fst snd]. split; [constructor|exact I]. }
      set (k := if (B <? N.of_nat (num_vals held * sz))%N then num_vals r else min (cap - num_vals held) (num_vals r)) in *.
      assert (KB : k <= num_vals r) by (unfold k; destruct (_ <? _)%N; lia). clearbody k.
      assert (HWE : ends_some (held ++ take_vals k r)).
      { assert (EW : ends_some (take_vals k r)) by (apply take_ends; exact KB). destruct (take_vals k r); [rewrite app_nil_r; exact HE|]. apply ends_app; [exact EW|discriminate]. }
      destruct (_ <? B)%N; [apply IH; exact HWE|]. cbn [fst snd].
      pose proof (rest_spec cap (drop_vals k r) Hc) as [_ RE]. specialize (IH ((held ++ take_vals k r) :: past) _ RE). cbn zeta in IH. destruct IH as [I1 I2].
      split; [|exact I2]. constructor; [|apply Forall_app; split; [apply counted_pos, cut_nonempty; exact Hc|exact I1]].
      cbn [fst]. apply seen_nonempty; [exact HWE|]. destruct held; [congruence|discriminate].
Qed.

(** C30 for every column: the identifiers of a written column are right exactly
    if every block was counted for the rows it has.  Without nulls it always
    is. *)
Theorem C30_every_column_exact :
  forall p sz B cap nl bufs rowss written res,
  0 < sz -> (N.of_nat sz < 2 ^ 31)%N -> (0 < B < 2 ^ 32)%N ->
  (B <= N.of_nat (cap * sz) < B + N.of_nat sz)%N ->
  Forall2 (fun b rows => pb_holds b nl rows) bufs rowss ->
  (total_rows rowss <= 2 ^ 32 - 8)%N -> Forall (fit sz) rowss ->
  pe_column p sz B nl bufs = Ret (written, res) ->
  exists blocks, all_blocks nl (checks p) sz B cap rowss = Some blocks
    /\ reads_blocks p sz nl written (map snd blocks)
    /\ (ids_right (map fst written) (map snd blocks) <-> Forall (fun b => fst b = length (snd b)) blocks)
    /\ (nl = false -> ids_right (map fst written) (map snd blocks)).
Proof.
  intros p sz B cap nl bufs rowss written res Hs Hz HB HF HH HT HV E.
  assert (Hc : 0 < cap) by (destruct HF; destruct cap; cbn in *; lia).
  pose proof (C29_every_column_exact p sz B cap nl bufs rowss Hs Hz HB HF HH HT HV) as X. cbn zeta in X.
  unfold all_blocks.
  assert (HA : Forall (rows_allowed nl) rowss).
  { clear -HH. induction HH as [|b r bufs rowss H _ IH]; constructor; auto. eapply holds_allowed; eauto. }
  destruct (col_all_pos nl (checks p) sz B cap Hc rowss [] [] ltac:(left; reflexivity)) as [P1 P2].
  assert (FN : nl = false -> Forall (fun b => fst b = length (snd b)) (fst (col_all nl (checks p) sz B cap [] [] rowss))).
  { intros ->. generalize (@nil (list (option N))) as past, (@nil (option N)) as held. clear. induction rowss as [|r rowss IH]; intros past held; cbn [col_all]; [constructor|].
    assert (CF : forall pos (l : list (list (option N))), Forall (fun b => fst b = length (snd b)) (counted false pos l)).
    { intros pos l. rewrite counted_false. apply Forall_map, Forall_forall. reflexivity. }
    destruct held as [|x h0]; [cbn [fst]; apply Forall_app; auto|]. cbn zeta. destruct (_ && _); [constructor|].
    destruct (_ <? B)%N; [apply IH|]. cbn [fst]. constructor; [reflexivity|]. apply Forall_app; auto. }
  destruct (snd (col_all nl (checks p) sz B cap [] [] rowss)) as [[past held]|].
  - destruct (_ <=? u32_max)%N; [|rewrite X in E; discriminate]. destruct X as (written' & E' & IDS & RB).
    rewrite E' in E. injection E as -> <-. eexists. split; [reflexivity|]. split; [exact RB|]. rewrite IDS.
    set (blocks := fst (col_all nl (checks p) sz B cap [] [] rowss) ++ flush_block (seen nl past held)) in *.
    assert (PB : Forall (fun b => 0 < fst b) blocks).
    { apply Forall_app. split; [exact P1|]. destruct (seen nl past held); [constructor|]. constructor; [cbn; lia|constructor]. }
    assert (IFF : ids_right (row_ids 0 (map fst blocks)) (map snd blocks) <-> Forall (fun b => fst b = length (snd b)) blocks).
    { pose proof (row_ids_right blocks PB 0%N) as RR. unfold ids_right. split.
      - intros [_ H]. apply (proj1 RR). intros i id Hi. rewrite N.add_0_l. auto.
      - intros H. split.
        + rewrite map_length. clear. generalize 0%N. induction blocks as [|b l IH]; intros n; cbn [map row_ids length]; [reflexivity|f_equal; apply IH].
        + intros i id Hi. rewrite (proj2 RR H i id Hi). apply N.add_0_l. }
    split; [exact IFF|]. intros EN. apply IFF. apply Forall_app. split; [apply FN; exact EN|].
    destruct (seen nl past held); [constructor|]. constructor; [reflexivity|constructor].
  - destruct (_ <=? u32_max)%N; rewrite X in E; discriminate.
Qed.
Print Assumptions C30_every_column_exact.

(** One-byte values: the block that completes the held back rows is counted
    right, the second block of the same buffer is counted from the start of the
    buffer, except if nulls are not allowed. *)
Example C30_every_column_witness :
  let v (n : N) := Some n in
  let rowss := [[v 1]; [v 2; v 3; v 4]]%N in
  all_blocks true true 1 2 2 rowss = Some [(2, [v 1%N; v 2%N]); (3, [v 3%N; v 4%N])]
  /\ match pe_column_rows Debug 1 2 true rowss, pe_column_rows Debug 1 2 false rowss with
     | Ret (written, Ok _), Ret (written', Ok _) => map fst written = [1; 4]%N /\ map fst written' = [1; 3]%N
     | _, _ => False end.
Proof. vm_compute. repeat split. Qed.

(** ** C32: flushing twice *)

(** C32 for every column: a second flush does nothing if nothing was held back;
    otherwise it writes the same block again under a higher identifier, or panics
    when the counter passes its maximum. *)
Theorem C32_every_column_exact :
  forall p sz B cap nl bufs rowss e written,
  0 < sz -> (N.of_nat sz < 2 ^ 31)%N -> (0 < B < 2 ^ 32)%N ->
  (B <= N.of_nat (cap * sz) < B + N.of_nat sz)%N ->
  Forall2 (fun b rows => pb_holds b nl rows) bufs rowss -> (total_rows rowss <= 2 ^ 32 - 2)%N ->
  pe_finish collect p sz (pe_new B nl) bufs [] = Ret (e, written, Ok tt) ->
  exists past held, snd (col_all nl (checks p) sz B cap [] [] rowss) = Some (past, held) /\
  match held with
  | [] => exists e', pe_flush collect p sz e written = Ret (e', written, Ok tt)
  | _ => exists before id block, written = before ++ [(id, block)] /\
      let n := N.of_nat (length (seen nl past held)) in
      if (id + n + 1 <=? u32_max)%N then exists e', pe_flush collect p sz e written = Ret (e', written ++ [(id + n, block)]%N, Ok tt)
      else pe_flush collect p sz e written = Panic PExpect
  end.
Proof.
  intros p sz B cap nl bufs rowss e written Hs Hz HB HF HH HT HE.
  pose proof (encodes_all_collect p sz B cap nl bufs rowss Hs Hz HB HF HH HT) as X. cbn zeta in X.
  set (run := col_all nl (checks p) sz B cap [] [] rowss) in *. unfold pe_finish in HE.
  destruct (N.leb_spec (total (map fst (fst run))) u32_max) as [L|L]; [|rewrite X in HE; discriminate].
  destruct (snd run) as [[past held]|]; [|rewrite X in HE; discriminate].
  destruct X as (e1 & E1 & I1 & LH). rewrite E1, bind_ret in HE. exists past, held. split; [reflexivity|].
  change (2 ^ 32 - 2)%N with 4294967294%N in LH.
  assert (PF : forall e1 rows s, pe_has B nl e1 past held rows -> match emits collect sz nl rows (flush_block (seen nl past held)) s with
    | Ret (rows', s', res) => exists e', pe_flush collect p sz e1 s = Ret (e', s', res) /\ pe_has B nl e' past held rows'
    | Panic k => pe_flush collect p sz e1 s = Panic k | NoFuel => False end).
  { intros e0 rows s I. apply pe_flush_all; auto. change (2 ^ 32)%N with 4294967296%N. lia. }
  pose proof (PF _ _ (labelled sz nl 0 (fst run)) I1) as PF1. rewrite emits_collect in PF1.
  assert (EN : ends_some held) by apply I1.
  destruct held as [|x l] eqn:EH.
  - assert (SN : seen nl past [] = (@nil (option N))) by (unfold seen; destruct nl; reflexivity). rewrite SN in *.
    cbn [flush_block map total fold_right] in *. rewrite orb_true_r in PF1. destruct PF1 as (e2 & E2 & I2). rewrite E2 in HE. injection HE as <- <-.
    pose proof (PF _ _ (labelled sz nl 0 (fst run) ++ []) I2) as PF2. rewrite emits_collect, orb_true_r in PF2.
    destruct PF2 as (e3 & E3 & _). cbn [labelled] in *. rewrite !app_nil_r in *. eauto.
  - rewrite <- EH in *. assert (HN : held <> []) by (rewrite EH; discriminate). pose proof (seen_nonempty nl past held EN HN) as P.
    assert (FB : flush_block (seen nl past held) = [(length (seen nl past held), seen nl past held)]) by (destruct (seen nl past held); [cbn in P; lia|reflexivity]).
    rewrite FB in *. cbn [map fst total fold_right labelled] in PF1. rewrite orb_false_r, N.add_0_r in PF1.
    set (n := N.of_nat (length (seen nl past held))) in *. set (t := total (map fst (fst run))) in *.
    destruct (N.leb_spec (t + n) u32_max) as [L2|L2]; [|rewrite PF1 in HE; discriminate].
    destruct PF1 as (e2 & E2 & I2). rewrite E2 in HE. injection HE as <- <-.
    eexists _, _, _. split; [reflexivity|]. cbn zeta.
    pose proof (PF _ _ (labelled sz nl 0 (fst run) ++ [(t + n - 1, prim_block sz nl (seen nl past held))%N]) I2) as PF2.
    rewrite emits_collect in PF2. cbn [map fst total fold_right labelled] in PF2. fold n in PF2.
    rewrite orb_false_r, N.add_0_r in PF2. assert (0 < n)%N by (unfold n; lia). fold n.
    replace (t + n - 1 + n + 1)%N with (t + n + n)%N by lia.
    destruct (N.leb_spec (t + n + n) u32_max); [|exact PF2].
    destruct PF2 as (e3 & -> & _). exists e3. replace (t + n + n - 1)%N with (t + n - 1 + n)%N by lia. reflexivity.
Qed.
Print Assumptions C32_every_column_exact.

(** A nullable column of one-byte values: the rows held back before shine through
    in both copies. *)
Example C32_every_column_witness :
  let v (n : N) := Some n in
  match pb_fill true [[v 1]; [v 2; None; v 3]; [None; v 4; v 5]]%N with
  | Ret bufs =>
      match pe_finish collect Debug 1 (pe_new 2 true) bufs [] with
      | Ret (e, written, Ok _) =>
          map fst written = [1; 3; 4]%N
          /\ match pe_flush collect Debug 1 e written with
             | Ret (_, written', Ok _) => map fst written' = [1; 3; 4; 5]%N
                 /\ reads_blocks Debug 1 true written' [[v 1; v 2]; [v 3; v 4]; [v 5]; [v 5]]%N
             | _ => False end
      | _ => False end
  | _ => False end.
Proof. vm_compute. repeat split. Qed.
