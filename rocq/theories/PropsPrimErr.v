(** Properties C31, C32, C55 and C58: panics, flushing twice, failing sinks and
    the row counter of fixed-width columns (raw/primitive_enc.rs). *)
From Verif Require Import Base BaseProofs Spec SpecRows Varint VarintProofs Buffers Observe BitmapProofs BuffersProofs
  Rle Sink PrimEnc ReadBlock ObserveEnc RowsProofs BlockProofs PrimEncProofs PrimRunProofs PropsPrim PropsPrimRows PropsPrimIds.
Open Scope nat_scope.

(** What a history of encodes does when the block size is a multiple of the
    value size. *)
Lemma encodes_collect p sz B cap nl bufs rowss :
  2 <= sz -> (N.of_nat sz < 2 ^ 31)%N -> (0 < B < 2 ^ 32)%N -> N.of_nat (cap * sz) = B ->
  Forall2 (fun b rows => pb_holds b nl rows) bufs rowss -> (total_rows rowss <= 2 ^ 32 - 2)%N ->
  exists run held, col_run nl true cap [] rowss = (run, Some held) /\
    if (total (map fst run) <=? u32_max)%N then
      exists e, pe_encodes collect p sz (pe_new B nl) bufs [] = Ret (e, labelled sz nl 0 run, Ok tt)
        /\ pe_inv B nl e held (total (map fst run)) /\ num_vals held <= cap
        /\ (N.of_nat (length held) <= 2 ^ 32)%N /\ (N.of_nat (sz * num_vals held) < u64_lim)%N
    else pe_encodes collect p sz (pe_new B nl) bufs [] = Panic PExpect.
Proof.
  intros Hs Hz HB HF HH HT.
  change (2 ^ 32 - 2)%N with 4294967294%N in HT. unfold total_rows in HT.
  pose proof (pe_encodes_ok collect p sz B cap nl Hs) as PE. unfold fits in PE.
  specialize (PE ltac:(clear -HF Hs; lia) HB Hz (or_intror HF) bufs rowss (pe_new B nl) [] 0%N [] HH (pe_inv_new B nl)).
  specialize (PE ltac:(cbn; lia) (fun _ => eq_refl)).
  change (2 ^ 32 - 2)%N with 4294967294%N in PE. cbn [length Nat.add] in PE.
  assert (HT2 : (N.of_nat (sum_len rowss) <= 4294967294)%N) by (clear -HT; unfold sum_len; lia). specialize (PE HT2).
  cbn zeta in PE. rewrite HF, N.eqb_refl in PE. rewrite emits_collect in PE.
  assert (SH : exists held, snd (col_run nl true cap [] rowss) = Some held).
  { clear. generalize (@nil (option N)). induction rowss as [|r rowss IH]; intros pending; cbn [col_run]; [eexists; reflexivity|].
    destruct pending as [|x l]; cbn [snd]; [apply IH|]. rewrite orb_true_r. apply IH. }
  destruct SH as (held & SH). destruct (col_run nl true cap [] rowss) as [run h]. cbn [fst snd] in *. subst h.
  exists run, held. split; [reflexivity|]. rewrite N.add_0_l in PE.
  destruct (N.leb_spec (total (map fst run)) u32_max) as [L|L]; cbn [orb app] in PE.
  - destruct PE as (e & E & I & A & LH). exists e. split; [exact E|]. split; [exact I|]. split; [exact A|].
    change (2 ^ 32)%N with 4294967296%N in *. split; [clear -LH HT2; lia|].
    assert (sz * num_vals held <= cap * sz) by (clear -A; nia). unfold u64_lim. lia.
  - destruct run; [cbn in L; lia|]. exact PE.
Qed.

Lemma column_counts p sz B cap nl bufs rowss :
  2 <= sz -> (N.of_nat sz < 2 ^ 31)%N -> (0 < B < 2 ^ 32)%N -> N.of_nat (cap * sz) = B ->
  Forall2 (fun b rows => pb_holds b nl rows) bufs rowss -> (total_rows rowss <= 2 ^ 32 - 2)%N ->
  exists run held, col_run nl true cap [] rowss = (run, Some held) /\
    if (total (map fst (run ++ flush_block held)) <=? u32_max)%N then
      exists written, pe_column p sz B nl bufs = Ret (written, Ok tt)
    else pe_column p sz B nl bufs = Panic PExpect.
Proof.
  intros Hs Hz HB HF HH HT.
  destruct (encodes_collect p sz B cap nl bufs rowss Hs Hz HB HF HH HT) as (run & held & ER & X).
  exists run, held. split; [exact ER|]. unfold pe_column, pe_finish. rewrite map_app, total_app.
  destruct (N.leb_spec (total (map fst run)) u32_max) as [L|L].
  - destruct X as (e & -> & I & A & LH & H64). rewrite bind_ret.
    pose proof (pe_flush_ok collect p sz B nl e held _ (labelled sz nl 0 run) ltac:(clear -Hs; lia) H64 I LH) as PF.
    change (match held with [] => [] | _ => [(length held, held)] end) with (flush_block held) in PF.
    rewrite emits_collect in PF.
    destruct (N.leb_spec (total (map fst run) + total (map fst (flush_block held))) u32_max) as [L2|L2]; cbn [orb] in PF.
    + destruct PF as (e' & -> & _). rewrite bind_ret. eexists; reflexivity.
    + destruct (flush_block held); [cbn in L2; lia|]. rewrite PF. reflexivity.
  - rewrite X. cbn [bind]. destruct (N.leb_spec (total (map fst run) + total (map fst (flush_block held))) u32_max); [lia|reflexivity].
Qed.

Lemma total_lengths {T} (ws : list (list T)) : total (map (@length T) ws) = N.of_nat (length (concat ws)).
Proof. induction ws as [|w ws IH]; [reflexivity|]. cbn [map total fold_right concat]. fold (total (map (@length T) ws)). rewrite IH, app_length. lia. Qed.

Lemma run_rows_le {T} nl exact cap : 0 < cap -> forall rowss (pending : list (option T)) run held,
  col_run nl exact cap pending rowss = (run, Some held) ->
  length (concat (map snd run) ++ held) <= length pending + length (concat rowss).
Proof.
  intros Hc. induction rowss as [|r rowss IH]; intros pending run held HR; cbn [col_run] in HR.
  - injection HR as <- <-. cbn. lia.
  - cbn [concat]. rewrite (app_length r). destruct pending as [|x pend0].
    + cbn zeta in HR. destruct (col_run nl exact cap (rest_of cap r) rowss) as [run' h'] eqn:ER. cbn [fst snd] in HR.
      injection HR as <- ->. apply IH in ER. rewrite map_app, counted_snd, concat_app, <- app_assoc, app_length.
      pose proof (f_equal (@length _) (cut_rest cap r Hc)) as E. rewrite app_length in E. pose proof (trim_length r). cbn [length]. lia.
    + destruct (_ || _); [|discriminate]. apply IH in HR. rewrite (app_length (x :: pend0)) in HR.
      pose proof (take_length (min (cap - num_vals (x :: pend0)) (num_vals r)) r). lia.
Qed.

(** C31 for columns that are not nullable and block sizes that are a multiple of
    the value size, as the repository uses them: no panic, no failure, for every
    column of fewer than 2^32-1 rows. *)
Theorem C31_never_panics_partial :
  forall p sz B cap bufs rowss,
  2 <= sz -> (N.of_nat sz < 2 ^ 31)%N -> (0 < B < 2 ^ 32)%N -> N.of_nat (cap * sz) = B ->
  Forall2 (fun b rows => pb_holds b false rows) bufs rowss -> (total_rows rowss < 2 ^ 32 - 1)%N ->
  exists written, pe_column p sz B false bufs = Ret (written, Ok tt).
Proof.
  intros p sz B cap bufs rowss Hs Hz HB HF HH HT.
  assert (HT2 : (total_rows rowss <= 2 ^ 32 - 2)%N) by (change (2 ^ 32 - 1)%N with 4294967295%N in HT; change (2 ^ 32 - 2)%N with 4294967294%N; lia).
  assert (Hc : 0 < cap) by (apply (cap_pos sz B cap); lia).
  destruct (column_counts p sz B cap false bufs rowss Hs Hz HB HF HH HT2) as (run & held & ER & X).
  pose proof (run_lengths false true cap Hc rowss [] (or_introl eq_refl)) as RL. rewrite ER in RL. cbn [fst] in RL.
  pose proof (run_rows_le false true cap Hc rowss [] run held ER) as RR. cbn [length Nat.add] in RR.
  rewrite map_app, RL, flush_lengths, <- map_app, <- map_app, total_lengths, concat_flush in X.
  unfold total_rows in HT. change (2 ^ 32 - 1)%N with 4294967295%N in HT.
  destruct (N.leb_spec (N.of_nat (length (concat (map snd run) ++ held))) u32_max) as [L|L]; [exact X|unfold u32_max in L; lia].
Qed.
Print Assumptions C31_never_panics_partial.

Example C31_witness :
  match pe_column_rows Debug 8 16 false [[Some 1]; []; [Some 2; Some 3; Some 4]; [Some 5]]%N with
  | Ret (_, Ok _) => True | _ => False end.
Proof. vm_compute. exact I. Qed.

(** C31 for nullable columns: the counter grows with the square of the number of
    rows of a buffer, and 92681 is the largest number of rows for which it cannot
    overflow whatever the block size. *)
Definition tri (n : nat) : N := (N.of_nat n * (N.of_nat n + 1))%N.

Lemma tri_add a b : (tri a + tri b <= tri (a + b))%N.
Proof. unfold tri. nia. Qed.

Lemma tri_mono a b : a <= b -> (tri a <= tri b)%N.
Proof. unfold tri. intros H. nia. Qed.

Lemma counted_tri {T} (ws : list (list (option T))) : Forall (fun w => w <> []) ws -> forall pos,
  (2 * total (map fst (counted true pos ws)) + tri pos <= tri (pos + length (concat ws)))%N.
Proof.
  induction 1 as [|w ws Hw _ IH]; intros pos; cbn [counted map fst total fold_right concat].
  - cbn [length]. rewrite Nat.add_0_r. lia.
  - fold (total (map fst (counted true (pos + length w) ws))). specialize (IH (pos + length w)).
    rewrite app_length, Nat.add_assoc. assert (0 < length w) by (destruct w; [congruence|cbn; lia]).
    assert (tri pos + 2 * N.of_nat (pos + length w) <= tri (pos + length w))%N by (unfold tri; nia). lia.
Qed.

Lemma run_tri {T} exact cap : 0 < cap -> forall rowss (pending : list (option T)) run held,
  col_run true exact cap pending rowss = (run, Some held) ->
  (2 * total (map fst run) + tri (length held) <= tri (length pending + length (concat rowss)))%N.
Proof.
  intros Hc. induction rowss as [|r rowss IH]; intros pending run held HR; cbn [col_run] in HR.
  - injection HR as <- <-. cbn [map total fold_right concat length]. rewrite Nat.add_0_r. lia.
  - cbn [concat]. rewrite (app_length r). destruct pending as [|x pend0].
    + cbn zeta in HR. destruct (col_run true exact cap (rest_of cap r) rowss) as [run' h'] eqn:ER. cbn [fst snd] in HR.
      injection HR as <- ->. apply IH in ER. rewrite map_app, total_app.
      pose proof (f_equal (@length _) (cut_rest cap r Hc)) as E. rewrite app_length in E. pose proof (trim_length r).
      assert (NE : Forall (fun w => w <> []) (cut cap r)).
      { eapply Forall_impl; [|apply windows_spec]. cbn. intros w [W _] ->. unfold num_vals in W. cbn in W. lia. }
      pose proof (counted_tri _ NE 0) as CT. change (tri 0) with 0%N in CT. cbn [Nat.add] in CT.
      pose proof (tri_add (length (concat (cut cap r))) (length (rest_of cap r) + length (concat rowss))) as TA.
      eapply N.le_trans; [|apply (tri_mono (length (concat (cut cap r)) + (length (rest_of cap r) + length (concat rowss))))]; cbn [length]; lia.
    + destruct (_ || _); [|discriminate]. apply IH in HR. rewrite (app_length (x :: pend0)) in HR.
      pose proof (take_length (min (cap - num_vals (x :: pend0)) (num_vals r)) r).
      eapply N.le_trans; [exact HR|]. apply tri_mono. lia.
Qed.

Theorem C31_nullable_partial :
  forall p sz B cap bufs rowss,
  2 <= sz -> (N.of_nat sz < 2 ^ 31)%N -> (0 < B < 2 ^ 32)%N -> N.of_nat (cap * sz) = B ->
  Forall2 (fun b rows => pb_holds b true rows) bufs rowss -> (total_rows rowss <= 92681)%N ->
  exists written, pe_column p sz B true bufs = Ret (written, Ok tt).
Proof.
  intros p sz B cap bufs rowss Hs Hz HB HF HH HT.
  assert (HT2 : (total_rows rowss <= 2 ^ 32 - 2)%N) by (change (2 ^ 32 - 2)%N with 4294967294%N; lia).
  assert (Hc : 0 < cap) by (apply (cap_pos sz B cap); lia).
  destruct (column_counts p sz B cap true bufs rowss Hs Hz HB HF HH HT2) as (run & held & ER & X).
  pose proof (run_tri true cap Hc rowss [] run held ER) as RT. cbn [length Nat.add] in RT.
  unfold total_rows in HT. rewrite map_app, total_app in X.
  assert (FB : (2 * total (map fst (flush_block held)) <= tri (length held))%N).
  { destruct held as [|x l]; [cbn; lia|]. cbn [flush_block map fst total fold_right]. unfold tri. nia. }
  assert (TB : (tri (length (concat rowss)) <= 92681 * 92682)%N) by (unfold tri; nia). change (92681 * 92682)%N with 8589860442%N in TB.
  destruct (N.leb_spec (total (map fst run) + total (map fst (flush_block held))) u32_max) as [L|L]; [exact X|unfold u32_max in L; lia].
Qed.
Print Assumptions C31_nullable_partial.

(** ** Columns of equal non-null values *)

Lemma take_repeat {T} (v : T) k : forall n, k <= n -> take_vals k (repeat (Some v) n) = repeat (Some v) k.
Proof. induction k as [|k IH]; intros [|n] H; try lia; cbn; [reflexivity..|]. f_equal. apply IH. lia. Qed.
Lemma drop_repeat {T} (v : T) k : forall n, k <= n -> drop_vals k (repeat (Some v) n) = repeat (Some v) (n - k).
Proof. induction k as [|k IH]; intros [|n] H; try lia; cbn; [reflexivity..|]. apply IH. lia. Qed.
Lemma num_repeat {T} (v : T) n : num_vals (repeat (Some v) n) = n.
Proof. unfold num_vals. induction n as [|n IH]; cbn; auto. Qed.

Lemma cut_repeat {T} (v : T) cap : 0 < cap -> forall k,
  cut cap (repeat (Some v) (k * cap)) = repeat (repeat (Some v) cap) k /\ rest_of cap (repeat (Some v) (k * cap)) = [].
Proof.
  intros Hc. induction k as [|k [IH1 IH2]].
  - cbn [Nat.mul repeat]. rewrite cut_step, rest_step by exact Hc. destruct (Nat.leb_spec cap (num_vals (@nil (option T)))) as [L|L].
    + unfold num_vals in L. cbn in L. lia.
    + split; reflexivity.
  - rewrite cut_step, rest_step by exact Hc. rewrite num_repeat. cbn [Nat.mul repeat].
    destruct (Nat.leb_spec cap (cap + k * cap)) as [_|L]; [|lia].
    rewrite take_repeat, drop_repeat by lia. replace (cap + k * cap - cap) with (k * cap) by lia. rewrite IH1, IH2. split; reflexivity.
Qed.

Lemma counted_repeat {T} (w : list (option T)) k : forall pos,
  (2 * total (map fst (counted true pos (repeat w k))) = 2 * N.of_nat k * N.of_nat pos + N.of_nat (length w) * (N.of_nat k * (N.of_nat k + 1)))%N.
Proof.
  induction k as [|k IH]; intros pos; cbn [repeat counted map fst total fold_right]; [lia|].
  fold (total (map fst (counted true (pos + length w) (repeat w k)))). specialize (IH (pos + length w)). nia.
Qed.

Lemma fill_one nl rows : rows_allowed nl rows -> exists b, pb_fill nl [rows] = Ret [b] /\ pb_holds b nl rows.
Proof.
  intros H. destruct (pb_new_rows nl rows H) as (b & E & V & VR). exists b. split.
  - cbn [pb_fill]. rewrite E. reflexivity.
  - split; [exact V|]. eapply val_rep_shows; eauto.
Qed.

(** The counter of a nullable column with one buffer of [k] full blocks. *)
Theorem C31_nullable_exact :
  forall p sz B cap k v, 2 <= sz -> (N.of_nat sz < 2 ^ 31)%N -> (0 < B < 2 ^ 32)%N -> N.of_nat (cap * sz) = B ->
  (N.of_nat (k * cap) <= 2 ^ 32 - 2)%N ->
  if (N.of_nat cap * (N.of_nat k * (N.of_nat k + 1)) <=? 2 * u32_max)%N then
    exists written, pe_column_rows p sz B true [repeat (Some v) (k * cap)] = Ret (written, Ok tt)
  else pe_column_rows p sz B true [repeat (Some v) (k * cap)] = Panic PExpect.
Proof.
  intros p sz B cap k v Hs Hz HB HF HT.
  assert (Hc : 0 < cap) by (apply (cap_pos sz B cap); lia).
  set (rows := repeat (Some v) (k * cap)).
  destruct (fill_one true rows (or_introl eq_refl)) as (b & EF & HH). unfold pe_column_rows. rewrite EF, bind_ret.
  destruct (column_counts p sz B cap true [b] [rows] Hs Hz HB HF) as (run & held & ER & X).
  - constructor; [exact HH|constructor].
  - unfold total_rows. cbn [concat]. rewrite app_nil_r. unfold rows. rewrite repeat_length. exact HT.
  - destruct (cut_repeat v cap Hc k) as [C1 C2]. fold rows in C1, C2. cbn [col_run fst snd] in ER. rewrite C1, C2, app_nil_r in ER.
    injection ER as <- <-. cbn [flush_block] in X. rewrite app_nil_r in X.
    pose proof (counted_repeat (repeat (Some v) cap) k 0) as CR. rewrite repeat_length in CR.
    destruct (N.leb_spec (total (map fst (counted true 0 (repeat (repeat (Some v) cap) k)))) u32_max) as [L|L];
      destruct (N.leb_spec (N.of_nat cap * (N.of_nat k * (N.of_nat k + 1))) (2 * u32_max)) as [L2|L2]; auto; lia.
Qed.
Print Assumptions C31_nullable_exact.

(** C31 does not hold.  With overflow checks, a block size that is not a multiple
    of the value size makes the third of three one-value buffers panic.  And in
    every build, a nullable column panics with "segment overflow" long before
    2^32 rows: with the repository's block size and 8-byte values at 370736 rows
    in one buffer, with blocks of one value at 92682. *)
Theorem C31_never_panics_refuted :
  pe_column_rows Debug 4 5 false [[Some 1]; [Some 2]; [Some 3]]%N = Panic POverflow
  /\ (forall p v, pe_column_rows p 8 128 true [repeat (Some v) (N.to_nat 23171 * 16)] = Panic PExpect)
  /\ (forall p v, pe_column_rows p 8 8 true [repeat (Some v) (N.to_nat 92682 * 1)] = Panic PExpect).
Proof.
  split; [vm_compute; reflexivity|]. split; intros p v.
  - pose proof (C31_nullable_exact p 8 128 16 (N.to_nat 23171) v) as X. rewrite Nat2N.inj_mul, N2Nat.id in X.
    apply X; cbn; lia.
  - pose proof (C31_nullable_exact p 8 8 1 (N.to_nat 92682) v) as X. rewrite Nat2N.inj_mul, N2Nat.id in X.
    apply X; cbn; lia.
Qed.
Print Assumptions C31_never_panics_refuted.

(** ** Flushing twice *)

(** C32.  Flushing a second time writes nothing only if nothing was held back;
    otherwise it writes the same block again, under a higher row identifier, or
    panics when the counter passes its maximum. *)
Theorem C32_flush_twice_exact :
  forall p sz B cap nl bufs rowss e written,
  2 <= sz -> (N.of_nat sz < 2 ^ 31)%N -> (0 < B < 2 ^ 32)%N -> N.of_nat (cap * sz) = B ->
  Forall2 (fun b rows => pb_holds b nl rows) bufs rowss -> (total_rows rowss <= 2 ^ 32 - 2)%N ->
  pe_finish collect p sz (pe_new B nl) bufs [] = Ret (e, written, Ok tt) ->
  exists run held, col_run nl true cap [] rowss = (run, Some held) /\
  match held with
  | [] => exists e', pe_flush collect p sz e written = Ret (e', written, Ok tt)
  | _ => exists before id block, written = before ++ [(id, block)] /\
      if (id + N.of_nat (length held) + 1 <=? u32_max)%N then
        exists e', pe_flush collect p sz e written = Ret (e', written ++ [(id + N.of_nat (length held), block)]%N, Ok tt)
      else pe_flush collect p sz e written = Panic PExpect
  end.
Proof.
  intros p sz B cap nl bufs rowss e written Hs Hz HB HF HH HT HE.
  destruct (encodes_collect p sz B cap nl bufs rowss Hs Hz HB HF HH HT) as (run & held & ER & X).
  exists run, held. split; [exact ER|]. unfold pe_finish in HE.
  destruct (N.leb_spec (total (map fst run)) u32_max) as [L|L]; [|rewrite X in HE; discriminate].
  destruct X as (e1 & E1 & I & A & LH & H64). rewrite E1, bind_ret in HE. assert (Z : 0 < sz) by (clear -Hs; lia).
  pose proof (pe_flush_ok collect p sz B nl e1 held _ (labelled sz nl 0 run) Z H64 I LH) as PF.
  rewrite emits_collect in PF. destruct held as [|x l] eqn:EH.
  - rewrite orb_true_r in PF. destruct PF as (e2 & E2 & I2). rewrite E2 in HE. injection HE as <- <-.
    pose proof (pe_flush_ok collect p sz B nl e2 [] _ (labelled sz nl 0 run ++ []) Z H64 I2 LH) as PF2.
    rewrite emits_collect, orb_true_r in PF2. destruct PF2 as (e3 & E3 & _). cbn [labelled] in *. rewrite !app_nil_r in *. eauto.
  - rewrite <- EH in *. cbn [map fst total fold_right] in PF. rewrite orb_false_r, N.add_0_r in PF.
    destruct (N.leb_spec (total (map fst run) + N.of_nat (length held)) u32_max) as [L2|L2]; [|rewrite PF in HE; discriminate].
    destruct PF as (e2 & E2 & I2). rewrite E2 in HE. injection HE as <- <-. cbn [labelled].
    eexists _, _, _. split; [reflexivity|].
    pose proof (pe_flush_ok collect p sz B nl e2 held _ (labelled sz nl 0 run ++ [(total (map fst run) + N.of_nat (length held) - 1, prim_block sz nl held)%N]) Z H64 I2 LH) as PF2.
    assert (FB : match held with [] => [] | _ => [(length held, held)] end = [(length held, held)]) by (rewrite EH; reflexivity).
    rewrite FB, emits_collect in PF2. cbn [map fst total fold_right labelled] in PF2.
    rewrite orb_false_r, N.add_0_r in PF2.
    assert (P : 0 < length held) by (rewrite EH; cbn; lia).
    set (t := total (map fst run)) in *. set (n := N.of_nat (length held)) in *. assert (0 < n)%N by (unfold n; lia). clearbody t n.
    replace (t + n - 1 + n + 1)%N with (t + n + n)%N by lia.
    destruct (N.leb_spec (t + n + n) u32_max); [|exact PF2].
    destruct PF2 as (e3 & -> & _). exists e3. replace (t + n + n - 1)%N with (t + n - 1 + n)%N by lia. reflexivity.
Qed.
Print Assumptions C32_flush_twice_exact.

Theorem C32_flush_twice_refuted :
  match pb_fill false [[Some 5; Some 6; Some 7]]%N with
  | Ret bufs =>
      match pe_finish collect Debug 4 (pe_new 8 false) bufs [] with
      | Ret (e, written, Ok _) =>
          written = [(1, [8; 5; 0; 0; 0; 6; 0; 0; 0]); (2, [4; 7; 0; 0; 0])]%N
          /\ match pe_flush collect Debug 4 e written with
             | Ret (_, written', Ok _) => written' = written ++ [(3, [4; 7; 0; 0; 0])]%N
             | _ => False end
      | _ => False end
  | _ => False end.
Proof. vm_compute. split; reflexivity. Qed.
Print Assumptions C32_flush_twice_refuted.

(** ** A sink that fails once *)

(** Rejects the block after [k] more, then works again. *)
Definition fails_once : sink_fn (option nat * list (N * list N)) :=
  fun s id data =>
    match fst s with
    | Some O => ((None, snd s), Err)
    | Some (S k) => ((Some k, snd s ++ [(id, data)]), Ok tt)
    | None => ((None, snd s ++ [(id, data)]), Ok tt)
    end.

Lemma emits_fails_once sz nl items : forall k rows acc,
  k < length items -> (rows + total (map fst (firstn (S k) items)) <= u32_max)%N ->
  emits fails_once sz nl rows items (Some k, acc)
  = Ret (rows + total (map fst (firstn (S k) items)), (None, acc ++ labelled sz nl rows (firstn k items)), Err)%N.
Proof.
  induction items as [|[n w] items IH]; intros k rows acc Hk HT; cbn [length] in Hk; [lia|].
  cbn [emits]. cbn [firstn map fst total fold_right] in HT |- *. fold (total (map fst (firstn k items))) in *.
  unfold pe_add_rows. destruct (N.leb_spec (N.of_nat n) u32_max); [|lia].
  destruct (N.leb_spec (rows + N.of_nat n) u32_max); [|lia]. rewrite bind_ret.
  destruct k as [|k]; cbn [fails_once fst snd].
  - cbn [firstn labelled map total fold_right]. rewrite app_nil_r, N.add_0_r. reflexivity.
  - rewrite IH by lia. cbn [firstn labelled]. rewrite <- app_assoc, N.add_assoc. reflexivity.
Qed.

Lemma emits_recovered sz nl items : forall rows acc, (rows + total (map fst items) <= u32_max)%N ->
  emits fails_once sz nl rows items (None, acc)
  = Ret (rows + total (map fst items), (None, acc ++ labelled sz nl rows items), Ok tt)%N.
Proof.
  induction items as [|[n w] items IH]; intros rows acc HT; cbn [emits].
  - cbn. rewrite app_nil_r, N.add_0_r. reflexivity.
  - cbn [map fst total fold_right] in HT |- *. fold (total (map fst items)) in *.
    unfold pe_add_rows. destruct (N.leb_spec (N.of_nat n) u32_max); [|lia].
    destruct (N.leb_spec (rows + N.of_nat n) u32_max); [|lia]. rewrite bind_ret.
    cbn [fails_once fst snd]. rewrite IH by lia. cbn [labelled]. rewrite <- app_assoc, N.add_assoc. reflexivity.
Qed.

(** The blocks a new column writes for one buffer when the sink never fails. *)
Definition first_blocks (p : profile) (sz : nat) (B : N) (nl : bool) (buf : prim_buf N) : outcome (list (N * list N)) :=
  let* r := pe_encode collect p sz (S (pb_len buf)) (pe_new B nl) buf [] in Ret (snd (fst r)).

(** C55, what happens on a failure: the error is reported and the blocks before
    the failure are those of an undisturbed run; encoding the buffer again then
    writes all of its blocks, the first [k] of them a second time, and under
    identifiers shifted by the rows counted for the [k+1] blocks of the first
    attempt. *)
Theorem C55_retry_exact :
  forall p sz B cap nl buf rows k,
  2 <= sz -> (N.of_nat sz < 2 ^ 31)%N -> (0 < B < 2 ^ 32)%N ->
  (B <= N.of_nat (cap * sz) < B + N.of_nat sz)%N ->
  pb_holds buf nl rows -> (N.of_nat (length rows) <= 2 ^ 32 - 2)%N ->
  let counts := map fst (counted nl 0 (cut cap rows)) in
  k < length counts -> (2 * total counts <= u32_max)%N ->
  exists blocks e1 e2 written,
    first_blocks p sz B nl buf = Ret blocks
    /\ pe_encode fails_once p sz (S (pb_len buf)) (pe_new B nl) buf (Some k, []) = Ret (e1, (None, firstn k blocks), Err)
    /\ pe_encode fails_once p sz (S (pb_len buf)) e1 buf (None, firstn k blocks) = Ret (e2, (None, firstn k blocks ++ written), Ok tt)
    /\ written = map (fun b => (fst b + total (firstn (S k) counts), snd b)%N) blocks.
Proof.
  intros p sz B cap nl buf rows k Hs Hz HB HF HH HL counts Hk HT.
  assert (Hc : 0 < cap) by (apply (cap_pos sz B cap); lia).
  set (items := counted nl 0 (cut cap rows)) in *.
  assert (Hc32 : (N.of_nat cap < 2 ^ 32)%N) by (clear -HF HB Hs; change (2 ^ 32)%N with 4294967296%N in *; nia).
  assert (LB : pb_len buf = num_vals rows) by (apply pb_holds_counts in HH; tauto).
  assert (Z : 0 < sz) by (clear -Hs; lia). assert (FU : num_vals rows < S (pb_len buf)) by (clear -LB; lia).
  assert (TS : (total (firstn (S k) counts) <= total counts)%N).
  { rewrite <- (firstn_skipn (S k) counts) at 2. rewrite total_app. lia. }
  pose proof (pe_encode_empty collect p sz B cap nl (S (pb_len buf)) (pe_new B nl) 0%N buf rows [] Z HF Hc Hc32 Hz (pe_inv_new B nl) HH HL FU) as P0.
  fold items in P0. rewrite emits_collect in P0. fold counts in P0. rewrite N.add_0_l in P0.
  destruct (N.leb_spec (total counts) u32_max) as [_|X]; [|clear -X HT; lia]. cbn [orb app] in P0.
  destruct P0 as (e0 & E0 & _). exists (labelled sz nl 0 items).
  pose proof (pe_encode_empty fails_once p sz B cap nl (S (pb_len buf)) (pe_new B nl) 0%N buf rows (Some k, []) Z HF Hc Hc32 Hz (pe_inv_new B nl) HH HL FU) as P1.
  fold items in P1. rewrite emits_fails_once in P1.
  2:{ unfold counts in Hk. rewrite map_length in Hk. exact Hk. }
  2:{ rewrite <- firstn_map. fold counts. clear -TS HT. lia. }
  destruct P1 as (e1 & E1 & I1). cbn [app] in E1. exists e1.
  assert (LF : forall k from l, firstn k (labelled sz nl from l) = labelled sz nl from (firstn k l)).
  { clear. induction k as [|k IH]; intros from [|[n w] l]; cbn; auto. f_equal. apply IH. }
  pose proof (pe_encode_empty fails_once p sz B cap nl (S (pb_len buf)) e1 _ buf rows (None, firstn k (labelled sz nl 0 items)) Z HF Hc Hc32 Hz I1 HH HL FU) as P2.
  fold items in P2. rewrite emits_recovered in P2.
  2:{ rewrite <- firstn_map. fold counts. clear -TS HT. lia. }
  destruct P2 as (e2 & E2 & _). exists e2, (labelled sz nl (0 + total (map fst (firstn (S k) items))) items).
  split; [unfold first_blocks; rewrite E0; reflexivity|]. split; [rewrite LF; exact E1|]. split; [exact E2|].
  rewrite <- firstn_map. fold counts. rewrite N.add_0_l. set (d := total (firstn (S k) counts)).
  assert (P : Forall (fun i => 0 < fst i) items).
  { unfold items. pose proof (windows_spec (S (num_vals rows)) cap rows) as W. fold (cut cap rows) in W. clear -W Hc.
    generalize 0 at 2. induction W as [|w ws [W1 _] _ IH]; intros pos; cbn [counted]; constructor; [|apply IH].
    cbn [fst]. pose proof (somes_length_le w). fold (num_vals w) in H. destruct nl; lia. }
  clearbody d. clear -P. change d with (0 + d)%N at 1. generalize 0%N. induction P as [|[n w] l Hn _ IH]; intros from; cbn [labelled map]; [reflexivity|].
  cbn [fst] in Hn. f_equal; [cbn [fst snd]; f_equal; lia|]. rewrite <- IH. f_equal. lia.
Qed.
Print Assumptions C55_retry_exact.

(** C55 does not hold: here the first of two blocks is rejected; encoding again
    gives row identifiers 3 and 5 instead of 1 and 3. *)
Theorem C55_retry_refuted :
  match pb_fill false [[Some 1; Some 2; Some 3; Some 4]]%N with
  | Ret [buf] =>
      match first_blocks Debug 4 8 false buf with Ret blocks => map fst blocks = [1; 3]%N | _ => False end
      /\ match pe_encode fails_once Debug 4 5 (pe_new 8 false) buf (Some 0, []) with
         | Ret (e, (None, []), Err) =>
             match pe_encode fails_once Debug 4 5 e buf (None, []) with
             | Ret (_, (_, written), Ok _) => map fst written = [3; 5]%N
             | _ => False end
         | _ => False end
  | _ => False end.
Proof. vm_compute. split; reflexivity. Qed.
Print Assumptions C55_retry_refuted.

(** ** The counter *)

(** Identifiers that increase strictly from [lo] and stay below [hi]. *)
Fixpoint ids_between (lo : N) (ids : list N) (hi : N) : Prop :=
  match ids with
  | [] => (lo <= hi)%N
  | id :: rest => (lo <= id)%N /\ ids_between (id + 1) rest hi
  end.

Lemma ids_between_app a : forall lo mid b hi, ids_between lo a mid -> ids_between mid b hi -> ids_between lo (a ++ b) hi.
Proof.
  induction a as [|x a IH]; intros lo mid b hi H1 H2; cbn in *.
  - destruct b; cbn in *; [lia|]. destruct H2; split; [lia|assumption].
  - destruct H1 as [H1 H3]. split; [exact H1|]. eapply IH; eauto.
Qed.

Lemma put_from_loop_moves fuel : forall e src items pos n e' q, rle_put_from_loop fuel e src items pos n = Ret (e', q) ->
  pos <= q /\ (items < n -> pos < q).
Proof.
  induction fuel as [|fuel IH]; intros e src items pos n e' q H; cbn [rle_put_from_loop] in H; [discriminate|].
  destruct (Nat.ltb_spec items n) as [L|L].
  - destruct (bm_is_set src pos) as [b| |]; try discriminate. cbn [bind] in H. destruct (rle_put e b) as [e1| |]; try discriminate.
    cbn [bind] in H. apply IH in H. lia.
  - injection H as _ <-. lia.
Qed.

Lemma encode_rows_pos sz buf start end_ bp rle out rle' n lvp :
  encode_primitive_buffer sz buf start end_ bp rle = Ret (out, rle', (n, lvp)) -> start < end_ -> 0 < n.
Proof.
  unfold encode_primitive_buffer. intros H L.
  destruct (put_varint [] _) as [h| |]; try discriminate. cbn [bind] in H.
  destruct (slice _ _ _) as [vals| |]; try discriminate. cbn [bind] in H.
  destruct (pb_validity buf) as [v|].
  - destruct (rle_put_from _ _ _ _) as [[e1 q]| |] eqn:EP; try discriminate. cbn [bind fst snd] in H.
    destruct (rle_flush e1); try discriminate. cbn [bind] in H. injection H as _ _ <- _.
    unfold rle_put_from in EP. apply put_from_loop_moves in EP. lia.
  - injection H as _ _ <- _. lia.
Qed.

Lemma pe_write_counts p sz e buf start end_ bp s e' s' res : start < end_ ->
  pe_write collect p sz e buf start end_ bp s = Ret (e', s', res) ->
  exists block, s' = s ++ [(pe_rows e' - 1, block)%N] /\ (pe_rows e < pe_rows e' <= u32_max)%N /\ pe_min e' = pe_min e
    /\ pe_remaining e' = pe_remaining e.
Proof.
  intros L H. unfold pe_write in H.
  destruct (encode_primitive_buffer sz buf start end_ bp (pe_bitmap e)) as [[[out rle'] [n lvp]]| |] eqn:EE; try discriminate.
  cbn [bind] in H. pose proof (encode_rows_pos _ _ _ _ _ _ _ _ _ _ EE L) as HN.
  destruct (pe_add_rows (pe_rows e) n) as [r| |] eqn:EA; try discriminate. cbn [bind] in H.
  apply add_rows_pos in EA. destruct EA as [-> EL]. rewrite sub32_ok in H by lia. cbn [bind collect fst snd] in H.
  injection H as <- <- _. exists out. cbn [pe_rows pe_min pe_remaining]. repeat split; auto; lia.
Qed.

Lemma pe_chunk_advances p sz len start B q : 0 < sz -> (0 < B < 2 ^ 63)%N -> (N.of_nat len < 2 ^ 63)%N -> start < len ->
  pe_chunk p sz len start B = Ret q -> start < q.
Proof.
  intros Hs HB HL H. unfold pe_chunk. change (2 ^ 63)%N with 9223372036854775808%N in *. cbn zeta.
  set (c := (B / N.of_nat sz + (if B mod N.of_nat sz =? 0 then 0 else 1))%N).
  assert (C0 : (0 < c)%N).
  { unfold c. destruct (N.eqb_spec (B mod N.of_nat sz) 0) as [E|E]; [|lia].
    pose proof (N.div_mod B (N.of_nat sz) ltac:(lia)) as D. rewrite E in D. nia. }
  assert (C1 : (c <= B)%N).
  { unfold c. pose proof (N.div_mod B (N.of_nat sz) ltac:(lia)) as D. destruct (N.eqb_spec (B mod N.of_nat sz) 0) as [E|E]; nia. }
  rewrite add64_ok by (unfold u64_lim; lia). rewrite bind_ret. destruct (N.ltb_spec (N.of_nat len) (N.of_nat start + c)); intros [= <-]; lia.
Qed.

Definition counted_step (e : prim_enc) (s : list (N * list N)) (e' : prim_enc) (s' : list (N * list N)) : Prop :=
  exists new, s' = s ++ new /\ ids_between (pe_rows e) (map fst new) (pe_rows e')
    /\ ((pe_rows e <= u32_max)%N -> (pe_rows e' <= u32_max)%N) /\ pe_min e' = pe_min e.

Lemma step_refl e e' s : pe_rows e' = pe_rows e -> pe_min e' = pe_min e -> counted_step e s e' s.
Proof. intros HR H. exists []. rewrite app_nil_r, HR. cbn. repeat split; auto. lia. Qed.

Lemma step_trans e1 s1 e2 s2 e3 s3 : counted_step e1 s1 e2 s2 -> counted_step e2 s2 e3 s3 -> counted_step e1 s1 e3 s3.
Proof.
  intros (n1 & -> & I1 & B1 & M1) (n2 & -> & I2 & B2 & M2). exists (n1 ++ n2). rewrite app_assoc, map_app.
  split; [reflexivity|]. split; [eapply ids_between_app; eauto|]. split; [auto|congruence].
Qed.

Lemma write_step p sz e buf start end_ bp s e' s' res : start < end_ ->
  pe_write collect p sz e buf start end_ bp s = Ret (e', s', res) -> counted_step e s e' s'.
Proof.
  intros L H. apply pe_write_counts in H; [|exact L]. destruct H as (block & -> & B & M & _).
  exists [(pe_rows e' - 1, block)%N]. cbn [map fst ids_between]. repeat split; auto; lia.
Qed.

Lemma loop_step p sz buf : 0 < sz -> (N.of_nat (pb_len buf) < 2 ^ 63)%N -> forall fuel e pos vp s e' s' res, (0 < pe_min e < 2 ^ 63)%N ->
  pe_loop collect p sz fuel e buf pos vp s = Ret (e', s', res) -> counted_step e s e' s'.
Proof.
  intros Hs HL. induction fuel as [|fuel IH]; intros e pos vp s e' s' res HB H; cbn [pe_loop] in H; [discriminate|].
  destruct (Nat.ltb_spec pos (pb_len buf)) as [L|L].
  - destruct (pe_chunk p sz (pb_len buf) pos (pe_min e)) as [q| |] eqn:EC; try discriminate. cbn [bind] in H.
    apply pe_chunk_advances in EC; auto.
    destruct (_ <? _)%N.
    + destruct (pb_append_from _ _ _ _ _) as [[b q']| |]; try discriminate. cbn [bind fst] in H. injection H as <- <- _.
      apply step_refl; reflexivity.
    + destruct (pe_write collect p sz e buf pos q vp s) as [[[e1 s1] res1]| |] eqn:EW; try discriminate. cbn [bind] in H.
      apply write_step in EW; [|exact EC]. pose proof EW as (_ & _ & _ & _ & M). destruct res1 as [lvp|].
      * apply IH in H; [|rewrite M; exact HB]. eapply step_trans; eauto.
      * injection H as <- <- _. exact EW.
  - injection H as <- <- _. apply step_refl; reflexivity.
Qed.

Lemma encode_step p sz buf fuel e s e' s' res : 0 < sz -> (N.of_nat (pb_len buf) < 2 ^ 63)%N -> (0 < pe_min e < 2 ^ 63)%N ->
  pe_encode collect p sz fuel e buf s = Ret (e', s', res) -> counted_step e s e' s'.
Proof.
  intros Hs HL HB H. unfold pe_encode in H. destruct (Nat.ltb_spec 0 (pb_len (pe_remaining e))) as [L|L].
  - destruct (sub64 _ _ _) as [want| |]; try discriminate. cbn [bind] in H.
    destruct (pe_chunk _ _ _ _ _) as [q| |]; try discriminate. cbn [bind] in H.
    destruct (pb_append_from (pe_remaining e) buf 0 q 0) as [[b q']| |] eqn:EA; try discriminate. cbn [bind fst snd] in H.
    assert (LB : 0 < pb_len b).
    { unfold pb_append_from in EA. destruct (slice _ _ _) as [ch| |]; try discriminate. cbn [bind] in EA.
      destruct (_ <? _)%N; [|discriminate]. destruct (validity_append_from _ _ _ _) as [[v r]| |]; try discriminate.
      cbn [bind] in EA. injection EA as <- _. unfold pb_len in *. cbn [pb_values]. rewrite app_length. lia. }
    destruct (_ <? _)%N.
    + injection H as <- <- _. apply step_refl; reflexivity.
    + unfold pe_write_remaining in H.
      destruct (pe_write collect p sz (pe_set_remaining e b) _ _ _ _ _) as [[[e1 s1] res1]| |] eqn:EW; try discriminate. cbn [bind] in H.
      apply write_step in EW; [|exact LB].
      assert (EW' : counted_step e s e1 s1) by exact EW. pose proof EW' as (_ & _ & _ & _ & M). destruct res1.
      * apply loop_step in H; auto; [|cbn [pe_min pe_set_remaining]; rewrite M; exact HB].
        eapply step_trans; [exact EW'|]. exact H.
      * injection H as <- <- _. exact EW'.
  - eapply loop_step; eauto.
Qed.

(** C58.  From any encoder, whatever the buffers, the build profile and the state
    of the sink: if the calls return at all, the identifiers of the new blocks
    increase strictly from the number of rows counted before and stay below the
    number counted after, which does not pass 2^32-1. *)
Theorem C58_counter_never_wraps :
  forall p sz bufs e s e' s' res,
  0 < sz -> (0 < pe_min e < 2 ^ 63)%N -> (pe_rows e <= u32_max)%N ->
  Forall (fun b => N.of_nat (length (pb_values b)) < 2 ^ 63)%N bufs ->
  pe_finish collect p sz e bufs s = Ret (e', s', res) ->
  exists new, s' = s ++ new /\ ids_between (pe_rows e) (map fst new) (pe_rows e') /\ (pe_rows e' <= u32_max)%N.
Proof.
  intros p sz bufs e s e' s' res Hs HB HR HL H.
  assert (X : counted_step e s e' s').
  2:{ destruct X as (new & A & B & C & _). exists new. auto. }
  clear HR. unfold pe_finish in H.
  destruct (pe_encodes collect p sz e bufs s) as [[[e1 s1] res1]| |] eqn:EE; try discriminate. cbn [bind] in H.
  assert (X1 : counted_step e s e1 s1).
  { clear H. revert e s HB EE. induction HL as [|b bufs Hb _ IH]; intros e s HB EE; cbn [pe_encodes] in EE.
    - injection EE as <- <- _. apply step_refl; reflexivity.
    - destruct (pe_encode collect p sz (S (pb_len b)) e b s) as [[[e2 s2] res2]| |] eqn:EB; try discriminate. cbn [bind] in EE.
      apply encode_step in EB; auto. pose proof EB as (_ & _ & _ & _ & M). destruct res2.
      + apply IH in EE; [|rewrite M; exact HB]. eapply step_trans; eauto.
      + injection EE as <- <- _. exact EB. }
  destruct res1; [|injection H as <- <- _; exact X1].
  eapply step_trans; [exact X1|]. unfold pe_flush, pe_write_remaining in H.
  destruct (Nat.ltb_spec 0 (pb_len (pe_remaining e1))) as [L|L].
  - destruct (pe_write _ _ _ _ _ _ _ _ _) as [[[e2 s2] res2]| |] eqn:EW; try discriminate. cbn [bind] in H.
    injection H as <- <- _. eapply write_step; eauto.
  - injection H as <- <- _. apply step_refl; reflexivity.
Qed.
Print Assumptions C58_counter_never_wraps.

(** Close to the limit: the block with the last identifier is written, the next
    one panics. *)
Example C58_witness :
  match pb_fill false [[Some 1; Some 2]; [Some 3]]%N with
  | Ret [a; b] =>
      let e := mk_penc (pb_new false) [] rle_new 4 4294967293 in
      match pe_encode collect Release 4 3 e a [] with
      | Ret (e1, written, Ok _) =>
          map fst written = [4294967293; 4294967294]%N
          /\ pe_encode collect Release 4 2 e1 b written = Panic PExpect
      | _ => False end
  | _ => False end.
Proof. vm_compute. split; reflexivity. Qed.

(** C28 for every encoder state and every buffer, in both profiles: the blocks
    that the loop of [encode] cuts out of a buffer. *)
Lemma encode_size p sz buf start end_ bp rle out rle' x :
  encode_primitive_buffer sz buf start end_ bp rle = Ret (out, rle', x) ->
  (N.of_nat (sz * (end_ - start)) < u64_lim)%N -> start <= end_ ->
  data_size p out (N.of_nat (sz * (end_ - start))).
Proof.
  intros H HZ HSE. unfold encode_primitive_buffer in H. rewrite put_varint_ok in H by exact HZ. cbn [bind app] in H.
  destruct (slice (pb_values buf) start end_) as [vals| |] eqn:ES; try discriminate. cbn [bind] in H.
  assert (LV : length vals = end_ - start).
  { unfold slice in ES. destruct (start <=? end_); [|discriminate]. destruct (Nat.leb_spec end_ (length (pb_values buf))); [|discriminate].
    injection ES as <-. rewrite firstn_length, skipn_length. lia. }
  assert (X : exists tl, out = varint_bytes (N.of_nat (sz * (end_ - start))) ++ to_byte_slice sz vals ++ tl).
  { destruct (pb_validity buf) as [v|].
    - destruct (rle_put_from _ _ _ _) as [[e1 q]| |]; try discriminate. cbn [bind fst snd] in H.
      destruct (rle_flush e1) as [e2| |]; try discriminate. cbn [bind] in H. injection H as <- _ _. exists (re_out e2). symmetry. apply app_assoc.
    - injection H as <- _ _. exists []. rewrite app_nil_r. reflexivity. }
  destruct X as (tl & ->). eexists. split; [apply decode_varint_bytes; exact HZ|].
  rewrite !app_length, bytes_length, LV. lia.
Qed.

Theorem C28_loop_sizes :
  forall p sz B e buf fuel pos vp s e' s' res,
  0 < sz -> (N.of_nat sz < 2 ^ 31)%N -> pe_min e = B -> (0 < B < 2 ^ 63)%N -> (N.of_nat (length (pb_values buf)) < 2 ^ 63)%N ->
  pe_loop collect p sz fuel e buf pos vp s = Ret (e', s', res) ->
  exists new, s' = s ++ new
    /\ Forall (fun b => exists size, data_size p (snd b) size /\ (B <= size < B + N.of_nat sz)%N) new.
Proof.
  intros p sz B e buf fuel pos vp s e' s' res Hs Hz HM HB HL. revert e pos vp s HM.
  change (2 ^ 63)%N with 9223372036854775808%N in *. change (2 ^ 31)%N with 2147483648%N in *.
  assert (CAP : exists cap, fits sz B cap).
  { exists (N.to_nat (B / N.of_nat sz + (if B mod N.of_nat sz =? 0 then 0 else 1))%N). unfold fits.
    rewrite Nat2N.inj_mul, N2Nat.id. pose proof (N.div_mod B (N.of_nat sz) ltac:(lia)) as D. pose proof (N.mod_lt B (N.of_nat sz) ltac:(lia)) as M.
    destruct (N.eqb_spec (B mod N.of_nat sz) 0) as [E|E]; nia. }
  destruct CAP as (cap & HF). assert (C1 : (N.of_nat cap <= B)%N) by (destruct HF; nia).
  induction fuel as [|fuel IH]; intros e pos vp s HM H; cbn [pe_loop] in H; [discriminate|].
  destruct (Nat.ltb_spec pos (pb_len buf)) as [L|L].
  - unfold pb_len in L. rewrite HM in H. rewrite (pe_chunk_ok p sz _ _ B cap Hs HF) in H by (unfold u64_lim; lia). cbn [bind] in H.
    set (q := min (pb_len buf) (pos + cap)) in *.
    destruct (N.ltb_spec (N.of_nat ((q - pos) * sz)) B) as [LB|LB].
    + destruct (pb_append_from _ _ _ _ _) as [[b q']| |]; try discriminate. cbn [bind fst] in H. injection H as _ <- _.
      exists []. split; [symmetry; apply app_nil_r|constructor].
    + assert (Q : pos <= q) by (unfold q, pb_len; lia).
      assert (SZ : (B <= N.of_nat (sz * (q - pos)) < B + N.of_nat sz)%N).
      { rewrite (Nat.mul_comm sz). split; [exact LB|]. assert (q - pos <= cap) by (unfold q; lia). destruct HF. nia. }
      assert (PQ : pos < q) by nia.
      destruct (pe_write collect p sz e buf pos q vp s) as [[[e1 s1] res1]| |] eqn:EW; try discriminate. cbn [bind] in H.
      pose proof EW as EW2. apply pe_write_counts in EW2; [|exact PQ]. destruct EW2 as (block & S1 & _ & M1 & _).
      unfold pe_write in EW.
      destruct (encode_primitive_buffer sz buf pos q vp (pe_bitmap e)) as [[[out rle'] [n lvp]]| |] eqn:EE; try discriminate.
      cbn [bind] in EW. destruct (pe_add_rows (pe_rows e) n) as [r| |]; try discriminate. cbn [bind] in EW.
      destruct (sub32 p r 1) as [id| |]; try discriminate. cbn [bind collect fst snd] in EW. injection EW as <- <- <-.
      apply (encode_size p) in EE; [|unfold u64_lim; lia|exact Q].
      cbn [pe_min] in M1. apply IH in H; [|exact HM]. destruct H as (new & -> & F).
      exists ((id, out) :: new). split; [rewrite <- app_assoc; reflexivity|]. constructor; [|exact F].
      cbn [snd]. eauto.
  - injection H as _ <- _. exists []. split; [symmetry; apply app_nil_r|constructor].
Qed.
Print Assumptions C28_loop_sizes.
