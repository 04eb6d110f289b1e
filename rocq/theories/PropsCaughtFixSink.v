(** Property C104 with blocks that are refused (raw/primitive_enc.rs). *)
From Verif Require Import Base BaseProofs Spec SpecRows SpecBin Varint VarintProofs Buffers Observe BitmapProofs BuffersProofs
  Rle RleTrackProofs PropsRle Sink PrimEnc BinEnc ReadBlock ObserveEnc RowsProofs BlockProofs PrimEncProofs PrimRunProofs BinEncProofs
  PropsBinFail PropsPrimAll PropsPrimAny PropsNulls Caught PropsCaughtBuf PropsCaughtEnc PropsCaughtFix.
Open Scope nat_scope.

(** An accepted block: its number, how many rows are counted for it, its rows. *)
Definition block := (N * (nat * list (option N)))%type.

Definition blocks_of (sz : nat) (nl : bool) (l : list block) : list (N * list N) := map (fun a => (fst a, prim_block sz nl (snd (snd a)))) l.

(** The values in them. *)
Definition values_in (l : list block) : list N := concat (map (fun a => somes (snd (snd a))) l).

(** Every block is numbered by the last of rows of its own, at least as many as it
    has, from [rows] counted to [rows']. *)
Fixpoint apart (rows : N) (l : list block) (rows' : N) : Prop :=
  match l with
  | [] => (rows <= rows')%N
  | (id, (n, w)) :: rest => exists from, (rows <= from)%N /\ 1 <= length w <= n /\ id = (from + N.of_nat n - 1)%N /\ apart (from + N.of_nat n) rest rows'
  end.

Lemma apart_le l : forall a a' b b', (a' <= a)%N -> (b <= b')%N -> apart a l b -> apart a' l b'.
Proof.
  induction l as [|[id [n w]] l IH]; intros a a' b b' HA HB; cbn [apart]; [lia|]. intros (from & H1 & H0 & H2 & H3). exists from. split; [lia|]. split; [exact H0|]. split; [exact H2|].
  eapply IH; [|exact HB|exact H3]. lia.
Qed.

Lemma apart_app l l' : forall a b c, apart a l b -> apart b l' c -> apart a (l ++ l') c.
Proof.
  induction l as [|[id [n w]] l IH]; intros a b c; cbn [apart app].
  - intros H H'. eapply apart_le; [exact H|apply N.le_refl|exact H'].
  - intros (from & H1 & H0 & H2 & H3) H'. exists from. split; [exact H1|]. split; [exact H0|]. split; [exact H2|]. eapply IH; eassumption.
Qed.

Lemma values_in_app a b : values_in (a ++ b) = values_in a ++ values_in b.
Proof. unfold values_in. rewrite map_app, concat_app. reflexivity. Qed.

Lemma values_in_map l : values_in l = block_values (map snd l).
Proof. unfold values_in, block_values. rewrite map_map. reflexivity. Qed.

Lemma blocks_of_app sz nl a b : blocks_of sz nl (a ++ b) = blocks_of sz nl a ++ blocks_of sz nl b.
Proof. apply map_app. Qed.

Definition fair (it : nat * list (option N)) : Prop := 1 <= length (snd it) <= fst it.

Lemma counted_fair nl ws : forall pos, Forall (fun w => w <> []) ws -> Forall fair (counted nl pos ws).
Proof.
  induction ws as [|w ws IH]; intros pos F; cbn [counted]; constructor; inversion F as [|? ? F1 F2]; subst; [|apply IH; exact F2].
  unfold fair. cbn [fst snd]. destruct w; [congruence|]. destruct nl; cbn [length]; lia.
Qed.

Lemma flush_fair R : Forall fair (flush_block R).
Proof. destruct R; cbn [flush_block]; constructor; [|constructor]. unfold fair. cbn [fst snd length]. lia. Qed.

Lemma fix_offered sz nl items : Forall fair items -> forall rows fates acc, exists l lost rows' fates' out,
  offer_blocks scripted sz nl rows items (fates, acc) = (rows', (fates', acc ++ blocks_of sz nl l), out)
  /\ items = map snd l ++ lost /\ apart rows l rows' /\ (out = Ret (Ok tt) /\ lost = [] \/ well out = false /\ lost <> []).
Proof.
  intros HF. induction HF as [|[n w] items HW HF IH]; intros rows fates acc; cbn [offer_blocks].
  - exists [], [], rows, fates, (Ret (Ok tt)). cbn [blocks_of map app apart]. rewrite app_nil_r. split; [reflexivity|]. split; [reflexivity|]. split; [lia|auto].
  - cbn zeta. destruct (_ <=? _)%N.
    2:{ exists [], ((n, w) :: items), rows, fates, (Panic PExpect). cbn [blocks_of map app apart well]. rewrite app_nil_r. split; [reflexivity|]. split; [reflexivity|]. split; [lia|right; split; [reflexivity|discriminate]]. }
    set (rows1 := (rows + N.of_nat n)%N).
    assert (GO : forall fates', exists l lost rows' fates2 out,
      offer_blocks scripted sz nl rows1 items (fates', acc ++ [((rows1 - 1)%N, prim_block sz nl w)]) = (rows', (fates2, acc ++ blocks_of sz nl l), out)
      /\ (n, w) :: items = map snd l ++ lost /\ apart rows l rows' /\ (out = Ret (Ok tt) /\ lost = [] \/ well out = false /\ lost <> [])).
    { intros fates'. destruct (IH rows1 fates' (acc ++ [((rows1 - 1)%N, prim_block sz nl w)])) as (l & lost & rows' & fates2 & out & E & EI & SP & O).
      exists (((rows1 - 1)%N, (n, w)) :: l), lost, rows', fates2, out. split; [rewrite E, <- app_assoc; reflexivity|]. split; [cbn [map snd app]; rewrite <- EI; reflexivity|].
      split; [|exact O]. cbn [apart]. exists rows. split; [lia|]. split; [exact HW|]. split; [reflexivity|exact SP]. }
    unfold scripted in GO |- * at 1. cbn [fst snd tl]. destruct fates as [|[|] fates]; [exact (GO [])|exact (GO fates)|].
    exists [], ((n, w) :: items), rows1, fates, (Ret Err). cbn [blocks_of map app apart well]. rewrite app_nil_r. split; [reflexivity|]. split; [reflexivity|]. split; [subst rows1; lia|].
    right; split; [reflexivity|discriminate].
Qed.

Lemma rest_ends cap (x : list (option N)) : 0 < cap -> ends_some (rest_of cap x).
Proof.
  intros Hc. pose proof (cut_rest cap x Hc) as CR. pose proof (trim_ends x) as TE. rewrite <- CR in TE.
  destruct (rest_of cap x) as [|y l]; [left; reflexivity|]. right.
  destruct TE as [TE|(q & v & TE)]; [destruct (concat (cut cap x)); discriminate TE|].
  destruct (exists_last (l := y :: l) ltac:(discriminate)) as (q' & z & EQ). rewrite EQ in TE |- *. rewrite app_assoc in TE. apply app_inj_tail in TE. destruct TE as [_ ->]. eauto.
Qed.

(** The blocks of the rest of a buffer. *)
Lemma fix_finished sz nl cap past rows fates acc pos rest : 0 < cap ->
  let '(rows', s', out) := offer_blocks scripted sz nl rows (counted nl pos (cut cap rest)) (fates, acc) in
  let st' := mk_col past (if well out then rest_of cap rest else []) rows' in
  ends_some (cs_held st') /\ exists l t more, snd s' = acc ++ blocks_of sz nl l /\ apart rows l (cs_rows st')
    /\ values_in l ++ somes (cs_held st') = t /\ somes rest = t ++ more /\ (out = Ret (Ok tt) -> more = []).
Proof.
  intros Hc. pose proof (cut_values nl cap pos rest Hc) as E.
  destruct (fix_offered sz nl (counted nl pos (cut cap rest)) (counted_fair _ _ _ (cut_nonempty cap rest Hc)) rows fates acc) as (l & lost & rows' & fates' & out & -> & EI & SP & O).
  rewrite EI, block_values_app, <- values_in_map in E. cbn zeta. cbn [cs_held cs_rows snd].
  destruct O as [[-> ->]|[G NE]].
  - cbn [well]. cbn [block_values map concat] in E. rewrite app_nil_r in E. split; [apply rest_ends; exact Hc|].
    exists l, (values_in l ++ somes (rest_of cap rest)), []. rewrite app_nil_r. split; [reflexivity|]. split; [exact SP|]. split; [reflexivity|]. split; [symmetry; exact E|reflexivity].
  - rewrite G. split; [left; reflexivity|].
    exists l, (values_in l), (block_values lost ++ somes (rest_of cap rest)).
    cbn [somes]. rewrite app_nil_r, app_assoc. split; [reflexivity|]. split; [exact SP|]. split; [reflexivity|]. split; [symmetry; exact E|].
    intros ->. discriminate G.
Qed.

Lemma fix_held_offered sz nl past R rows fates acc : ends_some R ->
  exists l rows' fates' out,
  offer_blocks scripted sz nl rows (flush_block (seen nl past R)) (fates, acc) = (rows', (fates', acc ++ blocks_of sz nl l), out)
  /\ apart rows l rows' /\ (out = Ret (Ok tt) /\ values_in l = somes R \/ well out = false /\ l = []).
Proof.
  intros HE. destruct (fix_offered sz nl (flush_block (seen nl past R)) (flush_fair _) rows fates acc) as (l & lost & rows' & fates' & out & E & EI & SP & O).
  exists l, rows', fates', out. split; [exact E|]. split; [exact SP|]. destruct (seen_spec nl past R HE) as (S1 & _).
  rewrite <- S1. destruct (seen nl past R) as [|y w]; cbn [flush_block] in EI.
  - destruct l; [|discriminate EI]. cbn [map app] in EI. subst lost. destruct O as [[-> _]|[_ NE]]; [|congruence]. left; auto.
  - destruct O as [[-> ->]|[G NE]].
    + rewrite app_nil_r in EI. destruct l as [|[id it] [|]]; try discriminate EI. cbn [map snd] in EI. injection EI as <-.
      left. split; [reflexivity|]. unfold values_in. cbn [map snd concat]. apply app_nil_r.
    + destruct l as [|a l]; [right; auto|].
      exfalso. cbn [map app] in EI. injection EI as _ EI. destruct l; [|discriminate EI]. cbn [map app] in EI. congruence.
Qed.

Lemma fix_call_got sz nl checked B cap st fates acc b : 0 < cap -> (sz = 1 -> N.of_nat cap = B) -> ends_some (cs_held st) ->
  let '(st', s', out) := col_call scripted sz nl checked B cap st (fates, acc) (Some b) in
  ends_some (cs_held st') /\ exists l t more, snd s' = acc ++ blocks_of sz nl l /\ apart (cs_rows st) l (cs_rows st')
    /\ values_in l ++ somes (cs_held st') = somes (cs_held st) ++ t /\ somes b = t ++ more
    /\ (sz = 1 -> out = Ret (Ok tt) -> more = []).
Proof.
  intros Hc H1 HE. destruct st as [past R rows]. cbn [cs_past cs_held cs_rows col_call] in *. destruct R as [|x R0].
  { pose proof (fix_finished sz nl cap past rows fates acc 0 b Hc) as F. destruct (offer_blocks _ _ _ _ _ _) as [[rows' s'] out].
    destruct F as (F0 & l & t & more & F1 & F2 & F3 & F4 & F5). split; [exact F0|]. exists l, t, more. cbn [somes app]. auto 8. }
  set (R := x :: R0) in *. clearbody R. clear x R0. cbn zeta.
  destruct ((B <? N.of_nat (num_vals R * sz))%N && checked).
  { cbn [cs_held cs_rows snd]. split; [exact HE|]. exists [], [], (somes b). cbn [blocks_of map apart]. rewrite !app_nil_r.
    split; [reflexivity|]. split; [lia|]. split; [reflexivity|]. split; [reflexivity|discriminate]. }
  set (k := if (B <? N.of_nat (num_vals R * sz))%N then num_vals b else min (cap - num_vals R) (num_vals b)).
  assert (KB : k <= num_vals b) by (unfold k; destruct (B <? _)%N; lia).
  assert (KD : k = num_vals b \/ k = min (cap - num_vals R) (num_vals b)) by (unfold k; destruct (B <? _)%N; auto). clearbody k.
  assert (HE' : ends_some (R ++ take_vals k b)) by (apply ends_join; [exact HE|apply take_ends; exact KB]).
  assert (SB : somes b = somes (take_vals k b) ++ somes (drop_vals k b)) by (rewrite <- somes_app, take_drop; reflexivity).
  destruct (N.ltb_spec (N.of_nat (num_vals (R ++ take_vals k b))) B) as [Q|_].
  { cbn [cs_held cs_rows snd]. split; [exact HE'|]. exists [], (somes (take_vals k b)), (somes (drop_vals k b)). cbn [blocks_of map apart]. rewrite app_nil_r, somes_app.
    split; [reflexivity|]. split; [lia|]. split; [reflexivity|]. split; [exact SB|]. intros ES _. specialize (H1 ES).
    assert (KA : k = num_vals b) by (rewrite num_vals_app, (proj1 (take_num k b KB)) in Q; destruct KD as [->| ->]; lia).
    destruct (somes (drop_vals k b)) eqn:ED; [reflexivity|]. pose proof (proj2 (take_num k b KB)) as TD. unfold num_vals at 1 in TD. rewrite ED in TD. cbn [length] in TD. lia. }
  destruct (fix_held_offered sz nl past (R ++ take_vals k b) rows fates acc HE') as (l & rows' & fates' & out & -> & SP & O).
  destruct O as [[-> GV]|[G ->]].
  - cbn [well]. pose proof (fix_finished sz nl cap ((R ++ take_vals k b) :: past) rows' fates' (acc ++ blocks_of sz nl l) (length (take_vals k b)) (drop_vals k b) Hc) as F.
    destruct (offer_blocks scripted sz nl rows' _ _) as [[rows2 s2] out]. destruct F as (HE2 & l2 & t & more & F1 & F2 & F3 & F4 & F5). split; [exact HE2|].
    exists (l ++ l2), (somes (take_vals k b) ++ t), more. split; [rewrite F1, blocks_of_app, app_assoc; reflexivity|]. split; [eapply apart_app; eassumption|].
    split; [rewrite values_in_app, <- app_assoc, F3, GV, somes_app, <- app_assoc; reflexivity|]. split; [rewrite SB, F4, app_assoc; reflexivity|auto].
  - rewrite G. cbn [cs_held cs_rows snd]. split; [exact HE'|]. exists [], (somes (take_vals k b)), (somes (drop_vals k b)). rewrite somes_app.
    split; [reflexivity|]. split; [exact SP|]. split; [reflexivity|]. split; [exact SB|]. intros _ ->. discriminate G.
Qed.

(** What is taken of the values of a call: a first part, and all if they have one
    byte each and the call returns without an error. *)
Definition part_of (sz : nat) (t : list N) (call : list (option N) * outcome (result unit)) : Prop :=
  first_part t (somes (fst call)) /\ (sz = 1 -> snd call = Ret (Ok tt) -> t = somes (fst call)).

Lemma fix_calls_got sz nl checked B cap bs : 0 < cap -> (sz = 1 -> N.of_nat cap = B) -> forall st fates acc, ends_some (cs_held st) ->
  let '(st', s', outs) := col_calls scripted sz nl checked B cap st (fates, acc) (map Some bs) in
  ends_some (cs_held st') /\ exists l ts, snd s' = acc ++ blocks_of sz nl l /\ apart (cs_rows st) l (cs_rows st')
    /\ values_in l ++ somes (cs_held st') = somes (cs_held st) ++ concat ts /\ length outs = length bs /\ Forall2 (part_of sz) ts (combine bs outs).
Proof.
  intros Hc H1. induction bs as [|b bs IH]; intros st fates acc HE; cbn [map col_calls].
  - split; [exact HE|]. exists [], []. cbn [blocks_of map apart snd values_in concat app]. rewrite !app_nil_r. split; [reflexivity|]. split; [lia|]. split; [reflexivity|]. split; [reflexivity|constructor].
  - pose proof (fix_call_got sz nl checked B cap st fates acc b Hc H1 HE) as C.
    destruct (col_call scripted sz nl checked B cap st (fates, acc) (Some b)) as [[st1 [fates1 acc1]] out]. cbn [snd] in C. destruct C as (HE1 & l & t & more & -> & SP & V & SB & OK).
    specialize (IH st1 fates1 (acc ++ blocks_of sz nl l) HE1).
    destruct (col_calls scripted sz nl checked B cap st1 _ (map Some bs)) as [[st2 s2] outs]. destruct IH as (HE2 & l2 & ts & E2 & SP2 & V2 & LE & T2). split; [exact HE2|].
    exists (l ++ l2), (t :: ts). split; [rewrite E2, blocks_of_app, app_assoc; reflexivity|]. split; [eapply apart_app; eassumption|].
    split; [rewrite values_in_app, <- app_assoc, V2, app_assoc, V; cbn [concat]; rewrite app_assoc; reflexivity|]. split; [cbn [length]; rewrite LE; reflexivity|]. cbn [combine]. constructor; [|exact T2].
    split; [exists more; exact SB|]. cbn [fst snd]. intros ES EO. rewrite (OK ES EO), app_nil_r in SB. symmetry. exact SB.
Qed.

(** C104 for a sink that accepts and refuses blocks as planned: the values of the
    accepted blocks and the values held back are, in order, a first part of the
    values of every call; with values of one byte, of a call that returns without an
    error all (for others see C29).  So what fails or panics may lose values, but none is
    repeated, changed or moved.  Every block is numbered by rows of its own, at
    least as many as it has.  A flush
    adds at most one block, exactly with what is held back, and does so if it returns
    without an error. *)
Theorem C104_refused : forall p sz B cap nullable (bufs : list (prim_buf N)) (bs : list (list (option N))) fates,
  0 < sz -> (N.of_nat sz < 2 ^ 31)%N -> (0 < B < 2 ^ 32)%N -> (B <= N.of_nat (cap * sz) < B + N.of_nat sz)%N ->
  Forall2 (fun buf b => pb_holds buf nullable b) bufs bs -> (N.of_nat (list_sum (map (@length (option N)) bs)) <= 2 ^ 32 - 2)%N ->
  let r := fix_anyway scripted p sz (pe_new B nullable, (fates, [])) (map FEncode bufs) in
  let f := fix_step scripted p sz (fst r) FFlush in
  exists accepted held ts last,
    snd (snd (fst r)) = blocks_of sz nullable accepted
    /\ apart 0 accepted (pe_rows (fst (fst r)))
    /\ pb_values (pe_remaining (fst (fst r))) = held
    /\ concat (map (fun a => somes (snd (snd a))) accepted) ++ held = concat ts
    /\ length (snd r) = length bs /\ Forall2 (part_of sz) ts (combine bs (snd r))
    /\ snd (snd (fst f)) = blocks_of sz nullable (accepted ++ last)
    /\ apart 0 (accepted ++ last) (pe_rows (fst (fst f)))
    /\ (snd f = Ret (Ok tt) /\ concat (map (fun a => somes (snd (snd a))) last) = held \/ snd f <> Ret (Ok tt) /\ last = []).
Proof.
  intros p sz B cap nl bufs bs fates Hs Hz HB HF HH HL.
  assert (Hc : 0 < cap) by (destruct HF; destruct cap; cbn in *; lia).
  assert (HG : Forall2 (given nl) (map FEncode bufs) (map Some bs)) by (clear -HH; induction HH as [|buf b bufs bs H HH IH]; cbn [map]; constructor; [exact H|exact IH]).
  assert (BR : brought (map Some bs) = list_sum (map (@length (option N)) bs)) by (unfold brought; rewrite map_map; reflexivity).
  pose proof (fix_runs scripted p sz B cap nl _ _ Hs Hz HB HF HG (pe_new B nl) (mk_col [] [] 0) (fates, []) (pe_has_new B nl)) as X.
  cbn [cs_held length Nat.add] in X. rewrite BR in X. specialize (X HL).
  pose proof (fix_calls_got sz nl (checks p) B cap bs Hc ltac:(intros ->; lia) (mk_col [] [] 0) fates [] (or_introl eq_refl)) as Y. cbn zeta.
  destruct (col_calls scripted sz nl (checks p) B cap (mk_col [] [] 0) (fates, []) (map Some bs)) as [[st s'] outs].
  destruct X as (e' & -> & I & LH). destruct Y as (HE & l & ts & E & SP & V & LE & T). cbn [cs_rows cs_held somes app fst snd fix_step] in *.
  destruct s' as [fates' acc]. cbn [fst snd] in E |- *. subst acc.
  pose proof (flush_offers scripted p sz B nl e' st (fates', blocks_of sz nl l) Hs Hz I) as F. change (2 ^ 32 - 2)%N with 4294967294%N in *. change (2 ^ 32)%N with 4294967296%N in F. specialize (F ltac:(lia) true 0).
  cbn [col_call] in F. destruct (fix_held_offered sz nl (cs_past st) (cs_held st) (cs_rows st) fates' (blocks_of sz nl l) HE) as (last & rows' & f2 & out & EO & SP2 & O). rewrite EO in F.
  destruct F as (e2 & -> & I2 & _). cbn [fst snd cs_rows cs_past cs_held] in *.
  assert (R1 : pe_rows e' = cs_rows st) by apply I. assert (R2 : pe_rows e2 = rows') by apply I2.
  exists l, (somes (cs_held st)), ts, last. split; [reflexivity|]. split; [rewrite R1; exact SP|]. split; [apply I|].
  split; [exact V|]. split; [exact LE|]. split; [exact T|]. split; [rewrite blocks_of_app; reflexivity|]. split; [rewrite R2; eapply apart_app; eassumption|].
  destruct O as [[-> G]|[G ->]]; [left; auto|right; split; [intros ->; discriminate G|reflexivity]].
Qed.
Print Assumptions C104_refused.

(** Blocks of two values.  The second is refused: its values and the rest of the
    buffer are lost.  The value held back by the next call is flushed. *)
Example C104_refused_example :
  let r := fix_anyway scripted Debug 8 (pe_new 16 false, ([true; false], [])) (map (fun vs => FEncode (fixed_buf false (map Some vs))) [[1; 2; 3; 4; 5]; [6]]%N) in
  snd r = [Ret Err; Ret (Ok tt)]
  /\ snd (snd (fst r)) = [(1, prim_block 8 false [Some 1; Some 2])]%N
  /\ pb_values (pe_remaining (fst (fst r))) = [6%N]
  /\ snd (snd (fst (fix_step scripted Debug 8 (fst r) FFlush))) = [(1, prim_block 8 false [Some 1; Some 2]); (4, prim_block 8 false [Some 6])]%N.
Proof. vm_compute. repeat split. Qed.
