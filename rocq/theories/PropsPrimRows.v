(** Properties C29-C32, C55 and C58: which rows of a fixed-width column survive,
    with which row identifiers, and when encoding fails (raw/primitive_enc.rs). *)
From Verif Require Import Base BaseProofs Spec SpecRows Varint VarintProofs Buffers Observe BitmapProofs BuffersProofs
  Rle Sink PrimEnc ReadBlock ObserveEnc RowsProofs BlockProofs PrimEncProofs PrimRunProofs PropsPrim.
Open Scope nat_scope.

(** Blocks that read back as the given rows. *)
Definition reads_blocks (p : profile) (sz : nat) (nl : bool) (written : list (N * list N)) (ws : list (list (option N))) : Prop :=
  map (fun b => read_primitive_block p sz nl (snd b)) written = map (fun w => Ret (Ok w)) ws.

(** Three buffers; the first ends in the middle of a block and has a trailing
    null. *)
Example C29_exact_witness :
  let rowss := [[Some 1; None; Some 2; Some 3; None]; [Some 4; Some 5; Some 6]; [Some 7]]%N in
  col_run true true 2 [] rowss = ([(3, [Some 1; None; Some 2]%N)], Some [Some 3; Some 4]%N)
  /\ match pe_column_rows Debug 8 16 true rowss with
     | Ret (written, Ok _) =>
         map fst written = [2; 4]%N
         /\ reads_blocks Debug 8 true written [[Some 1; None; Some 2]; [Some 3; Some 4]]%N
     | _ => False end.
Proof. vm_compute. repeat split. Qed.

(** C29 does not hold: when a buffer arrives while rows are held back, only as
    many of its rows as complete one block are kept; and nulls after the last
    non-null row of a buffer are always lost.  Here with the block size the
    repository uses, 128 bytes, and 8-byte values. *)
Theorem C29_lossless_refuted :
  ~ (forall p sz B nl rowss written,
       0 < sz -> (0 < B)%N -> Forall (fit sz) rowss -> Forall (rows_allowed nl) rowss ->
       pe_column_rows p sz B nl rowss = Ret (written, Ok tt) ->
       exists ws, reads_blocks p sz nl written ws /\ concat ws = concat rowss)
  /\ (* without nulls: one value, then seventeen, two are lost *)
  match pe_column_rows Release 8 128 false [[Some 1]; repeat (Some 2) 17]%N with
  | Ret (written, Ok _) => reads_blocks Release 8 false written [Some 1 :: repeat (Some 2) 15]%N
  | _ => False end
  /\ (* a trailing null *)
  match pe_column_rows Release 8 128 true [[Some 1; None]]%N with
  | Ret (written, Ok _) => reads_blocks Release 8 true written [[Some 1]]%N
  | _ => False end
  /\ (* only nulls *)
  pe_column_rows Release 8 128 true [[None; None]] = Ret ([], Ok tt).
Proof.
  split; [|split; [|split]].
  - intros H. specialize (H Release 8 128%N true [[None]] [] ltac:(lia) ltac:(lia)).
    assert (F : Forall (fit 8) [[None]]) by (repeat constructor).
    specialize (H F ltac:(repeat constructor) eq_refl). destruct H as (ws & H1 & H2).
    unfold reads_blocks in H1. cbn in H1. destruct ws; discriminate.
  - vm_compute. reflexivity.
  - vm_compute. reflexivity.
  - vm_compute. reflexivity.
Qed.
Print Assumptions C29_lossless_refuted.

(** How many non-null rows survive: all of those in the leading buffers that
    hold a multiple of [cap] of them, all of the next buffer, and then only what
    completes its last block. *)
Fixpoint kept (cap : nat) (counts : list nat) : nat :=
  match counts with
  | [] => 0
  | n :: rest => if n mod cap =? 0 then n + kept cap rest else n + (cap - n mod cap)
  end.

Lemma somes_take {T} k : forall rows : list (option T), somes (take_vals k rows) = firstn k (somes rows).
Proof.
  intros rows; revert k. induction rows as [|[v|] rows IH]; intros [|k]; cbn; auto.
  - f_equal. apply IH.
  - apply (IH (S k)).
Qed.

Lemma somes_trim {T} (rows : list (option T)) : somes (trim rows) = somes rows.
Proof. unfold trim. rewrite somes_take. apply firstn_all. Qed.

Lemma windows_num {T} cap (ws : list (list (option T))) : Forall (fun w => num_vals w = cap /\ ends_some w) ws ->
  num_vals (concat ws) = length ws * cap.
Proof. induction 1 as [|w ws [H _] _ IH]; cbn [concat length]; [reflexivity|]. rewrite num_vals_app, IH, H. lia. Qed.

Lemma rest_num {T} cap (rows : list (option T)) : 0 < cap -> num_vals (rest_of cap rows) = num_vals rows mod cap.
Proof.
  intros Hc. pose proof (f_equal num_vals (cut_rest cap rows Hc)) as E. rewrite num_vals_app, num_trim in E.
  pose proof (windows_num cap _ (windows_spec (S (num_vals rows)) cap rows)) as W. fold (cut cap rows) in W. rewrite W in E.
  destruct (rest_spec cap rows Hc) as [L _]. apply (Nat.mod_unique _ _ (length (cut cap rows))); [exact L|]. lia.
Qed.

Lemma run_values {T} nl cap : 0 < cap -> forall rowss (pending : list (option T)) run held,
  num_vals pending <= cap -> ends_some pending ->
  col_run nl true cap pending rowss = (run, Some held) ->
  somes (concat (map snd run) ++ held)
  = match pending with
    | [] => firstn (kept cap (map num_vals rowss)) (somes (concat rowss))
    | _ => somes pending ++ firstn (cap - num_vals pending) (somes (concat rowss))
    end.
Proof.
  intros Hc. induction rowss as [|r rowss IH]; intros pending run held HC HE HR; cbn [col_run] in HR.
  - injection HR as <- <-. cbn [concat map app somes]. destruct pending; [reflexivity|]. rewrite firstn_nil, app_nil_r. reflexivity.
  - cbn [map concat kept]. destruct pending as [|x pend0].
    + cbn zeta in HR. destruct (col_run nl true cap (rest_of cap r) rowss) as [run' held'] eqn:ER. cbn [fst snd] in HR.
      injection HR as <- ->. destruct (rest_spec cap r Hc) as [R1 R2].
      specialize (IH (rest_of cap r) run' held ltac:(lia) R2 ER).
      rewrite map_app, counted_snd, concat_app, <- app_assoc, somes_app, IH. clear IH.
      pose proof (f_equal somes (cut_rest cap r Hc)) as E. rewrite somes_app, somes_trim in E.
      pose proof (rest_num cap r Hc) as RN.
      destruct (rest_of cap r) as [|y l] eqn:ERest.
      * change (num_vals (@nil (option T))) with 0 in RN. rewrite <- RN. cbn [Nat.eqb]. cbn [somes] in E. rewrite app_nil_r in E.
        rewrite E, somes_app. symmetry. apply (firstn_app_2 _ (somes r)).
      * assert (P : 0 < num_vals (y :: l)) by (apply nonempty_num; [exact R2|discriminate]).
        destruct (Nat.eqb_spec (num_vals r mod cap) 0) as [Z|Z]; [lia|]. rewrite <- RN.
        rewrite (app_assoc (somes (concat (cut cap r)))), E. rewrite somes_app.
        symmetry. apply (firstn_app_2 _ (somes r)).
    + set (pending := x :: pend0) in *. assert (HN : pending <> []) by discriminate. rewrite orb_true_r in HR.
      set (k := min (cap - num_vals pending) (num_vals r)) in *.
      assert (HEk : ends_some (take_vals k r)) by (apply take_ends; lia).
      specialize (IH (pending ++ take_vals k r) run held).
      rewrite num_vals_app, num_take in IH. specialize (IH ltac:(lia)).
      assert (HE2 : ends_some (pending ++ take_vals k r)).
      { destruct (take_vals k r) eqn:ET; [rewrite app_nil_r; exact HE|]. apply ends_app; [exact HEk|discriminate]. }
      specialize (IH HE2 HR). rewrite IH.
      assert (NE : exists y l, pending ++ take_vals k r = y :: l) by (unfold pending; cbn [app]; eauto).
      destruct NE as (y & l & NE). rewrite NE. rewrite <- NE. rewrite somes_app, somes_take, <- app_assoc. f_equal.
      rewrite somes_app. fold (num_vals r). rewrite firstn_app. fold (num_vals r).
      destruct (Nat.le_gt_cases (cap - num_vals pending) (num_vals r)) as [Hle|Hgt].
      * f_equal; [f_equal; unfold k; lia|]. f_equal. lia.
      * rewrite (firstn_all2 (n := k)) by (unfold k, num_vals in *; lia).
        rewrite (firstn_all2 (n := cap - num_vals pending)) by (unfold num_vals in *; lia). f_equal. f_equal. lia.
Qed.

Lemma column_reads p sz B cap nl bufs rowss written res :
  2 <= sz -> (N.of_nat sz < 2 ^ 31)%N -> (0 < B < 2 ^ 32)%N -> N.of_nat (cap * sz) = B ->
  Forall2 (fun b rows => pb_holds b nl rows) bufs rowss ->
  (total_rows rowss <= 2 ^ 32 - 8)%N -> Forall (fit sz) rowss ->
  pe_column p sz B nl bufs = Ret (written, res) ->
  exists run held, col_run nl true cap [] rowss = (run, Some held) /\ res = Ok tt
    /\ reads_blocks p sz nl written (map snd (run ++ flush_block held))
    /\ map fst written = row_ids 0 (map fst (run ++ flush_block held)).
Proof.
  intros Hs Hz HB HF HH HT HV E.
  pose proof (C29_column_exact p sz B cap nl bufs rowss Hs Hz HB ltac:(lia) (or_intror HF) HH HT HV) as X. cbn zeta in X.
  rewrite HF, N.eqb_refl in X. destruct (col_run nl true cap [] rowss) as [run [held|]] eqn:ER; cbn [fst snd] in X.
  - destruct (_ <=? _)%N; [|congruence]. destruct X as (w & E2 & I & R). rewrite E in E2. injection E2 as <- ->.
    exists run, held. split; [reflexivity|]. split; [reflexivity|]. split; [|exact I].
    unfold reads_blocks. rewrite R, map_map. reflexivity.
  - destruct (_ <=? _)%N; congruence.
Qed.

Lemma concat_flush {T} (run : list (nat * list (option T))) held :
  concat (map snd (run ++ flush_block held)) = concat (map snd run) ++ held.
Proof.
  rewrite map_app, concat_app. f_equal. destruct held; [reflexivity|]. cbn [flush_block map snd concat]. apply app_nil_r.
Qed.

(** C29, what does hold when the block size is a multiple of the value size (as
    for every column the repository creates): the non-null values that survive
    are the first [kept] ones, in order; for a column that is not nullable this
    determines the rows, and nothing is lost exactly if no more rows were given. *)
Theorem C29_values_kept :
  forall p sz B cap nl bufs rowss written res,
  2 <= sz -> (N.of_nat sz < 2 ^ 31)%N -> (0 < B < 2 ^ 32)%N -> N.of_nat (cap * sz) = B ->
  Forall2 (fun b rows => pb_holds b nl rows) bufs rowss ->
  (total_rows rowss <= 2 ^ 32 - 8)%N -> Forall (fit sz) rowss ->
  pe_column p sz B nl bufs = Ret (written, res) ->
  let k := kept cap (map (fun rows => length (somes rows)) rowss) in
  res = Ok tt /\ exists ws, reads_blocks p sz nl written ws
    /\ somes (concat ws) = firstn k (somes (concat rowss))
    /\ (nl = false -> concat ws = firstn k (concat rowss)
                      /\ (concat ws = concat rowss <-> length (concat rowss) <= k)).
Proof.
  intros p sz B cap nl bufs rowss written res Hs Hz HB HF HH HT HV E k.
  destruct (column_reads _ _ _ _ _ _ _ _ _ Hs Hz HB HF HH HT HV E) as (run & held & ER & -> & R & _).
  split; [reflexivity|]. eexists. split; [exact R|]. rewrite concat_flush.
  assert (Hc : 0 < cap) by (destruct cap; cbn in *; lia).
  pose proof (run_values nl cap Hc rowss [] run held ltac:(cbn; lia) ltac:(left; reflexivity) ER) as V. cbn iota in V.
  split; [exact V|]. intros ->.
  assert (HA : Forall (rows_allowed false) rowss).
  { clear -HH. induction HH as [|b r bufs rowss H _ IH]; constructor; auto. eapply holds_allowed; eauto. }
  assert (AS : Forall (fun r => is_some r = true) (concat rowss)).
  { clear -HA. induction HA as [|r rowss [H|H] _ IH]; [constructor|discriminate|]. cbn [concat]. apply Forall_app. auto. }
  assert (EW : concat (map snd run) ++ held = firstn k (concat rowss)).
  { assert (AW : Forall (fun r => is_some r = true) (concat (map snd run) ++ held)).
    { destruct (col_run_blocks false true cap Hc rowss [] HA) as [CB _]. rewrite ER in CB. cbn [fst] in CB.
      apply Forall_app. split.
      - clear -CB. induction CB as [|w ws (_ & _ & [H|H] & _) _ IH]; [constructor|discriminate|]. cbn [concat]. apply Forall_app. auto.
      - destruct (col_run_allowed false true cap Hc rowss [] run held HA ltac:(right; constructor) ER) as [X|X]; [discriminate|exact X]. }
    rewrite (all_some_map _ AW), (all_some_map _ AS), V, firstn_map. reflexivity. }
  split; [exact EW|]. rewrite EW. split; intros H.
  - pose proof (f_equal (@length _) H) as L. rewrite firstn_length in L. lia.
  - apply firstn_all2. exact H.
Qed.
Print Assumptions C29_values_kept.

Example C29_kept_witness :
  kept 16 (map (fun rows => length (somes rows)) [[Some 1]; repeat (Some 2) 17]%N) = 16
  /\ kept 16 [32; 16; 5; 7; 20; 1] = 64.
Proof. vm_compute. split; reflexivity. Qed.

(** C29, lossless cases: if every buffer except the last holds a multiple of
    [cap] non-null rows -- in particular for a single buffer -- exactly the
    trailing nulls of each buffer are lost. *)
Definition no_trailing_nulls {T} (rows kept_rows : list (option T)) : Prop :=
  (kept_rows = [] \/ exists r v, kept_rows = r ++ [Some v]) /\ exists k, rows = kept_rows ++ repeat None k.

Lemma trim_no_trailing {T} (rows : list (option T)) : no_trailing_nulls rows (trim rows).
Proof.
  split; [apply trim_ends|]. exists (length (drop_vals (num_vals rows) rows)).
  pose proof (take_drop (num_vals rows) rows) as E. fold (trim rows) in E. rewrite <- E at 1. f_equal.
  pose proof (num_drop (num_vals rows) rows) as ND. clear E. unfold num_vals in ND at 1.
  induction (drop_vals (num_vals rows) rows) as [|[v|] l IH]; cbn in *; [reflexivity|lia|f_equal; apply IH; exact ND].
Qed.

Theorem C29_full_blocks :
  forall p sz B cap nl bufs rowss lst written res,
  2 <= sz -> (N.of_nat sz < 2 ^ 31)%N -> (0 < B < 2 ^ 32)%N -> N.of_nat (cap * sz) = B ->
  Forall2 (fun b rows => pb_holds b nl rows) bufs (rowss ++ [lst]) ->
  (total_rows (rowss ++ [lst]) <= 2 ^ 32 - 8)%N -> Forall (fit sz) (rowss ++ [lst]) ->
  Forall (fun rows => length (somes rows) mod cap = 0) rowss ->
  pe_column p sz B nl bufs = Ret (written, res) ->
  res = Ok tt /\ exists ws tails, reads_blocks p sz nl written ws
    /\ Forall2 no_trailing_nulls (rowss ++ [lst]) tails /\ concat ws = concat tails.
Proof.
  intros p sz B cap nl bufs rowss lst written res Hs Hz HB HF HH HT HV HM E.
  destruct (column_reads _ _ _ _ _ _ _ _ _ Hs Hz HB HF HH HT HV E) as (run & held & ER & -> & R & _).
  split; [reflexivity|]. eexists _, (map trim (rowss ++ [lst])). split; [exact R|]. split.
  - clear. induction (rowss ++ [lst]); constructor; auto. apply trim_no_trailing.
  - rewrite concat_flush. assert (Hc : 0 < cap) by (destruct cap; cbn in *; lia).
    clear -ER HM Hc. revert run held ER. induction HM as [|r rowss H _ IH]; intros run held ER.
    + cbn [app col_run fst snd] in ER. injection ER as <- <-. rewrite app_nil_r, counted_snd. cbn [app map concat].
      rewrite app_nil_r. apply cut_rest. exact Hc.
    + cbn [app col_run] in ER. cbn zeta in ER.
      pose proof (rest_num cap r Hc) as RN. unfold num_vals in RN at 2. rewrite H in RN.
      destruct (rest_spec cap r Hc) as [_ R2]. assert (E0 : rest_of cap r = []).
      { destruct (rest_of cap r) eqn:EE; [reflexivity|]. pose proof (nonempty_num _ R2 ltac:(discriminate)). lia. }
      rewrite E0 in ER. destruct (col_run nl true cap [] (rowss ++ [lst])) as [run' h'] eqn:ER'. cbn [fst snd] in ER.
      injection ER as <- ->. specialize (IH run' held eq_refl).
      rewrite map_app, counted_snd, concat_app, <- app_assoc, IH. cbn [app map concat]. f_equal.
      pose proof (cut_rest cap r Hc) as CR. rewrite E0, app_nil_r in CR. exact CR.
Qed.
Print Assumptions C29_full_blocks.

Example C29_full_witness :
  match pe_column_rows Debug 4 8 true [[Some 1; None; Some 2; None]; [None; Some 3; Some 4; Some 5; None]]%N with
  | Ret (written, Ok _) => reads_blocks Debug 4 true written
      [[Some 1; None; Some 2]; [None; Some 3; Some 4]; [Some 5]]%N
  | _ => False end.
Proof. vm_compute. reflexivity. Qed.
