(** Property C55 for every history of a fixed-width column
    (raw/primitive_enc.rs): encode and flush calls in any order, of which any may
    fail. *)
From Verif Require Import Base BaseProofs Spec SpecRows SpecBin SpecFail Varint VarintProofs Buffers Observe BitmapProofs BuffersProofs
  Rle RleTrackProofs PropsRle Sink PrimEnc ReadBlock ObserveEnc RowsProofs BlockProofs PrimEncProofs PrimRunProofs BinEncProofs
  PropsPrim PropsPrimRows PropsPrimIds PropsPrimErr PropsPrimAny PropsPrimAll PropsPrimAllErr PropsBinFail.
Open Scope nat_scope.

(** Calls of [encode] ([Some]) and [flush] ([None]) that go on after a failed one. *)
Fixpoint pe_calls {S} (wr : sink_fn S) (p : profile) (sz : nat) (e : prim_enc) (calls : list (option (prim_buf N))) (s : S)
  : outcome (prim_enc * S * list (result unit)) :=
  match calls with
  | [] => Ret (e, s, [])
  | c :: rest =>
      let* r := match c with Some b => pe_encode wr p sz (Datatypes.S (pb_len b)) e b s | None => pe_flush wr p sz e s end in
      let '(e, s, res) := r in
      let* r := pe_calls wr p sz e rest s in
      let '(e, s, ress) := r in Ret (e, s, res :: ress)
  end.

Section Fail.
Variables (p : profile) (sz : nat).

Definition pwritten (nl : bool) (accepted : list (N * (nat * list (option N)))) : list (N * list N) :=
  map (fun a => (fst a, prim_block sz nl (snd (snd a)))) accepted.

Lemma emits_scripted nl items : forall rows fates acc,
  match offer fst (fun _ => true) rows fates items with
  | Some (a, rows', fates', ok) =>
      emits scripted sz nl rows items (fates, acc) = Ret (rows', (fates', acc ++ pwritten nl a), verdict ok)
  | None => emits scripted sz nl rows items (fates, acc) = Panic PExpect
  end.
Proof.
  induction items as [|[n w] items IH]; intros rows fates acc; cbn [offer emits].
  - cbn [pwritten map]. rewrite app_nil_r. reflexivity.
  - cbn [fst andb]. change (2 ^ 32)%N with 4294967296%N. unfold pe_add_rows, u32_max.
    destruct (N.leb_spec (N.of_nat n) 4294967295) as [L1|L1]; cbn [bind].
    2:{ destruct (N.ltb_spec (rows + N.of_nat n) 4294967296); [lia|]. reflexivity. }
    destruct (N.leb_spec (rows + N.of_nat n) 4294967295) as [L2|L2]; cbn [bind];
      destruct (N.ltb_spec (rows + N.of_nat n) 4294967296) as [L3|L3]; try lia; [|reflexivity].
    destruct fates as [|[|] fates]; cbn [scripted fst snd tl].
    + specialize (IH (rows + N.of_nat n)%N [] (acc ++ [(rows + N.of_nat n - 1, prim_block sz nl w)%N])).
      destruct (offer _ _ _ [] items) as [[[[a rows'] fates'] ok]|]; [|exact IH]. rewrite IH. cbn [pwritten map fst snd]. rewrite <- app_assoc. reflexivity.
    + specialize (IH (rows + N.of_nat n)%N fates (acc ++ [(rows + N.of_nat n - 1, prim_block sz nl w)%N])).
      destruct (offer _ _ _ fates items) as [[[[a rows'] fates'] ok]|]; [|exact IH]. rewrite IH. cbn [pwritten map fst snd]. rewrite <- app_assoc. reflexivity.
    + cbn [pwritten map verdict]. rewrite app_nil_r. reflexivity.
Qed.

Definition psound (nl : bool) (from : list (option N)) (bound : nat) (accepted : list (N * (nat * list (option N)))) : Prop :=
  Forall (fun a => good_rows nl from bound (snd (snd a))) accepted.

Lemma offer_psound nl from bound items rows fates a rows' fates' ok : Forall (good_rows nl from bound) (map snd items) ->
  offer fst (fun _ => true) rows fates items = Some (a, rows', fates', ok) -> psound nl from bound a.
Proof.
  intros HB H. apply offer_in in H. rewrite Forall_map, Forall_forall in HB. eapply Forall_impl; [|exact H]. cbn. intros x (HI & _). auto.
Qed.

Definition pcall_as (B : N) (nl : bool) (from : list (option N)) (bound : nat) (acc : list (N * list N))
  (r : call_result N (nat * list (option N))) (run : outcome (prim_enc * (list bool * list (N * list N)) * result unit)) : Prop :=
  match r with
  | None => is_panic run
  | Some (a, st, ok) => exists e', run = Ret (e', (cl_fates st, acc ++ pwritten nl a), verdict ok)
      /\ pe_has B nl e' (cl_past st) (cl_held st) (cl_rows st) /\ psound nl from bound a /\ good_rows nl from bound (cl_held st)
  end.

Lemma good_nil nl (from : list (option N)) bound : good_rows nl from bound [].
Proof. split; [left; reflexivity|]. split; [right; constructor|]. split; [cbn; lia|intros x []]. Qed.

Lemma good_seen nl past from bound (R : list (option N)) : good_rows nl from bound R -> good_rows nl from bound (seen nl past R).
Proof.
  intros (G1 & G2 & G3 & G4). destruct (seen_spec nl past R G1) as (S1 & S2 & S3 & S4). split; [exact S2|]. split; [apply S4; exact G2|].
  split; [lia|]. rewrite S1. exact G4.
Qed.

Lemma encode_pcall B cap nl past e R rows fates acc buf b from bound :
  0 < sz -> fits sz B cap -> (0 < B < 2 ^ 32)%N -> (N.of_nat sz < 2 ^ 31)%N ->
  pe_has B nl e past R rows -> pb_holds buf nl b -> (N.of_nat (length R + length b) <= 2 ^ 32 - 2)%N ->
  good_rows nl from bound R -> length R + length b <= bound -> incl (somes b) (somes from) ->
  pcall_as B nl from bound acc (prim_call nl (checks p) sz B cap (mk_col past R rows fates) (Some b))
    (pe_encode scripted p sz (Datatypes.S (pb_len buf)) e buf (fates, acc)).
Proof.
  intros Hs HF HB Hz HI HH HL GR LB IB.
  assert (Hc : 0 < cap) by (destruct HF; destruct cap; cbn in *; lia).
  assert (HAb : rows_allowed nl b) by (eapply holds_allowed; eauto).
  unfold prim_call. cbn [cl_past cl_held cl_rows cl_fates]. cbn zeta.
  destruct R as [|x R0].
  - change (2 ^ 32)%N with 4294967296%N in *. change (4294967296 - 2)%N with 4294967294%N in *.
    assert (Hc32 : (N.of_nat cap < 2 ^ 32)%N) by (change (2 ^ 32)%N with 4294967296%N; destruct HF; nia).
    assert (NB : pb_len buf = num_vals b) by (apply pb_holds_counts in HH; tauto).
    pose proof (pe_loop_all scripted p sz B cap nl past Hs HF Hc Hc32 Hz (Datatypes.S (pb_len buf)) b [] e rows buf 0 (fates, acc) HI HH) as PE.
    change (2 ^ 32)%N with 4294967296%N in PE. change (4294967296 - 2)%N with 4294967294%N in PE. cbn [length Nat.add] in PE, HL, LB.
    specialize (PE HL (fun _ => eq_refl) ltac:(lia)).
    assert (EE : pe_encode scripted p sz (Datatypes.S (pb_len buf)) e buf (fates, acc) = pe_loop scripted p sz (Datatypes.S (pb_len buf)) e buf (num_vals (@nil (option N))) 0 (fates, acc)).
    { unfold pe_encode. pose proof (pe_has_len _ _ _ _ _ _ HI) as [-> _]. reflexivity. }
    rewrite EE. pose proof (emits_scripted nl (counted nl 0 (cut cap b)) rows fates acc) as ES. unfold prim_finish. unfold sink_fn in *.
    destruct (good_cut nl cap 0 b Hc HAb) as [G1 G2].
    assert (G1' : Forall (good_rows nl from bound) (map snd (counted nl 0 (cut cap b)))).
    { eapply Forall_impl; [|exact G1]. intros w Hw. eapply good_weaken; [exact Hw|exact LB|exact IB]. }
    destruct (offer fst _ rows fates _) as [[[[a rows'] fates'] ok]|] eqn:EO; rewrite ES in PE.
    + destruct PE as (e' & E & I'). cbn [pcall_as cl_fates cl_past cl_held cl_rows]. exists e'. split; [exact E|].
      split; [destruct ok; exact I'|]. split; [eapply offer_psound; eauto|]. destruct ok; [|apply good_nil]. eapply good_weaken; [exact G2|exact LB|exact IB].
    + cbn [pcall_as]. rewrite PE. eexists; reflexivity.
  - set (R := x :: R0) in *. assert (HN : R <> []) by discriminate.
    change (match R with [] => ?a | _ => ?c end) with c. clearbody R. clear x R0.
    pose proof (pe_encode_held_steps scripted p sz B cap nl e past R rows buf b (fates, acc) Hs HF HB Hz HI HN HH HL) as PH. cbn zeta in PH.
    destruct ((B <? N.of_nat (num_vals R * sz))%N && checks p).
    { rewrite PH. eexists; reflexivity. }
    assert (KB : (if (B <? N.of_nat (num_vals R * sz))%N then num_vals b else min (cap - num_vals R) (num_vals b)) <= num_vals b) by (clear; destruct (_ <? _)%N; lia).
    set (k := if (B <? N.of_nat (num_vals R * sz))%N then num_vals b else min (cap - num_vals R) (num_vals b)) in *. clearbody k.
    set (w := take_vals k b) in *. set (b' := drop_vals k b) in *.
    assert (EB : b = w ++ b') by (symmetry; apply take_drop).
    assert (LBB : length b = length w + length b') by (rewrite EB at 1; apply app_length).
    assert (HA2 : rows_allowed nl w /\ rows_allowed nl b') by (split; [apply allowed_take|apply allowed_drop]; exact HAb).
    assert (GF : good_rows nl from bound (R ++ w)).
    { destruct GR as (R1 & R2 & R3 & R4). split; [|split; [apply allowed_app; tauto|split; [rewrite app_length; lia|]]].
      - assert (WE : ends_some w) by (apply take_ends; exact KB). clear -R1 WE. destruct w; [rewrite app_nil_r; exact R1|]. apply ends_app; [exact WE|discriminate].
      - rewrite somes_app. apply incl_app; [exact R4|]. eapply incl_tran; [|exact IB]. rewrite EB. rewrite somes_app. apply incl_appl, incl_refl. }
    destruct (N.ltb_spec (N.of_nat (num_vals (R ++ w))) B) as [LT|GE].
    { destruct PH as (e1 & -> & I1). cbn [pcall_as cl_fates cl_past cl_held cl_rows pwritten map verdict]. rewrite app_nil_r.
      exists e1. split; [reflexivity|]. split; [exact I1|]. split; [constructor|exact GF]. }
    pose proof (emits_scripted nl [(length (seen nl past (R ++ w)), seen nl past (R ++ w))] rows fates acc) as ES. unfold sink_fn in *.
    destruct (offer fst _ rows fates [_]) as [[[[a rows1] fates1] ok]|] eqn:EO; rewrite ES in PH.
    2:{ rewrite PH. eexists; reflexivity. }
    assert (SA : psound nl from bound a).
    { eapply offer_psound; [|exact EO]. constructor; [|constructor]. cbn [snd]. apply good_seen. exact GF. }
    destruct ok; cbn [verdict] in PH.
    + unfold prim_finish. pose proof (emits_scripted nl (counted nl (length w) (cut cap b')) rows1 fates1 (acc ++ pwritten nl a)) as ES2.
      destruct (good_cut nl cap (length w) b' Hc (proj2 HA2)) as [G1 G2].
      assert (IB' : incl (somes b') (somes from)).
      { eapply incl_tran; [|exact IB]. rewrite EB. rewrite somes_app. apply incl_appr, incl_refl. }
      assert (G1' : Forall (good_rows nl from bound) (map snd (counted nl (length w) (cut cap b')))).
      { eapply Forall_impl; [|exact G1]. intros u Hu. eapply good_weaken; [exact Hu|lia|exact IB']. }
      destruct (offer fst _ rows1 fates1 _) as [[[[a2 rows2] fates2] ok2]|] eqn:EO2; rewrite ES2 in PH.
      * destruct PH as (e' & -> & I'). cbn [pcall_as cl_fates cl_past cl_held cl_rows]. exists e'.
        split; [unfold pwritten; rewrite map_app, app_assoc; reflexivity|]. split; [destruct ok2; exact I'|].
        split; [apply Forall_app; split; [exact SA|eapply offer_psound; eauto]|].
        destruct ok2; [|apply good_nil]. eapply good_weaken; [exact G2|lia|exact IB'].
      * rewrite PH. eexists; reflexivity.
    + destruct PH as (e' & -> & I'). cbn [pcall_as cl_fates cl_past cl_held cl_rows verdict]. exists e'. split.
      { cbn [offer] in EO. destruct (_ && _); [|discriminate EO]. destruct fates as [|[|] fates]; cbn [offer tl] in EO; try discriminate EO.
        injection EO as <- <- <-. reflexivity. }
      split; [exact I'|]. split; [constructor|exact GF].
Qed.

Lemma flush_pcall B cap nl past e R rows fates acc from bound : 0 < sz -> (N.of_nat sz < 2 ^ 31)%N ->
  pe_has B nl e past R rows -> (N.of_nat (length R) <= 2 ^ 32)%N -> good_rows nl from bound R ->
  pcall_as B nl from bound acc (prim_call nl (checks p) sz B cap (mk_col past R rows fates) None) (pe_flush scripted p sz e (fates, acc)).
Proof.
  intros Hs Hz HI HL GR. pose proof (pe_flush_all scripted p sz B nl e past R rows (fates, acc) Hs Hz HI HL) as PF.
  unfold prim_call. cbn [cl_past cl_held cl_rows cl_fates]. cbn zeta. destruct R as [|x R0].
  - assert (seen nl past [] = (@nil (option N))) as EN by (unfold seen; destruct nl; reflexivity). rewrite EN in PF. cbn [flush_block emits] in PF.
    destruct PF as (e' & -> & I'). cbn [pcall_as cl_fates cl_past cl_held cl_rows pwritten map verdict]. rewrite app_nil_r.
    exists e'. split; [reflexivity|]. split; [exact I'|]. split; [constructor|exact GR].
  - set (R := x :: R0) in *. assert (HN : R <> []) by discriminate. change (match R with [] => ?a | _ => ?c end) with c. clearbody R.
    assert (HE : ends_some R) by apply HI. destruct (seen_spec nl past R HE) as (S1 & _). pose proof (nonempty_num R HE HN) as HP.
    assert (EF : flush_block (seen nl past R) = [(length (seen nl past R), seen nl past R)]).
    { destruct (seen nl past R) eqn:E; [|reflexivity]. exfalso. unfold num_vals in HP. rewrite <- S1 in HP. cbn in HP. lia. }
    rewrite EF in PF. pose proof (emits_scripted nl [(length (seen nl past R), seen nl past R)] rows fates acc) as ES. unfold sink_fn in *.
    destruct (offer fst _ rows fates [_]) as [[[[a rows1] fates1] ok]|] eqn:EO; rewrite ES in PF.
    + destruct PF as (e' & -> & I'). cbn [pcall_as cl_fates cl_past cl_held cl_rows]. exists e'. split; [reflexivity|]. split; [exact I'|].
      split; [|exact GR]. eapply offer_psound; [|exact EO]. constructor; [|constructor]. cbn [snd]. apply good_seen. exact GR.
    + rewrite PF. eexists; reflexivity.
Qed.

Definition pcall_holds (nl : bool) (c : option (prim_buf N)) (r : option (list (option N))) : Prop :=
  match c, r with Some buf, Some b => pb_holds buf nl b | None, None => True | _, _ => False end.

Lemma held_grows B cap nl past (R : list (option N)) rows fates c a st ok : 0 < cap ->
  prim_call nl (checks p) sz B cap (mk_col past R rows fates) c = Some (a, st, ok) -> length (cl_held st) <= length R + length (call_rows c).
Proof.
  intros Hc H. unfold prim_call in H. cbn [cl_past cl_held cl_rows cl_fates] in H. cbn zeta in H.
  assert (PF : forall past' rows' fates' pos rest a (st : col_state N) ok, prim_finish nl cap past' rows' fates' pos rest = Some (a, st, ok) -> length (cl_held st) <= length rest).
  { clear H. intros past' rows' fates' pos rest a0 st0 ok0 H. unfold prim_finish in H. destruct (offer _ _ _ _ _) as [[[[a1 r1] f1] o1]|]; [|discriminate H].
    injection H as <- <- <-. cbn [cl_held]. destruct o1; [apply rest_length; exact Hc|cbn; lia]. }
  destruct c as [b|]; cbn [call_rows].
  - destruct R as [|x R0]; [apply PF in H; cbn; lia|]. set (R := x :: R0) in *. clearbody R.
    destruct (_ && checks p); [discriminate H|]. set (k := if (B <? N.of_nat (num_vals R * sz))%N then num_vals b else min (cap - num_vals R) (num_vals b)) in *. clearbody k.
    pose proof (f_equal (@length _) (take_drop k b)) as TL. rewrite app_length in TL.
    destruct (_ <? B)%N.
    + injection H as <- <- <-. cbn [cl_held]. rewrite app_length. lia.
    + destruct (offer _ _ _ _ _) as [[[[a1 r1] f1] [|]]|]; [| |discriminate H].
      * destruct (prim_finish _ _ _ _ _ _ _) as [[[a2 st2] ok2]|] eqn:EP; [|discriminate H]. injection H as <- <- <-. apply PF in EP. lia.
      * injection H as <- <- <-. cbn [cl_held]. rewrite app_length. lia.
  - cbn [length]. destruct R as [|x R0]; [injection H as <- <- <-; cbn; lia|]. set (R := x :: R0) in *. clearbody R.
    destruct (offer _ _ _ _ _) as [[[[a1 r1] f1] o1]|]; [|discriminate H]. injection H as <- <- <-. cbn [cl_held]. lia.
Qed.

Lemma pcalls_ok B cap nl from bound : 0 < sz -> fits sz B cap -> (0 < B < 2 ^ 32)%N -> (N.of_nat sz < 2 ^ 31)%N -> (N.of_nat bound <= 2 ^ 32 - 2)%N ->
  forall calls rowss, Forall2 (pcall_holds nl) calls rowss ->
  forall e past R rows fates acc, pe_has B nl e past R rows -> good_rows nl from bound R ->
  length R + length (calls_rows rowss) <= bound -> incl (somes (calls_rows rowss)) (somes from) ->
  match history (prim_call nl (checks p) sz B cap) (mk_col past R rows fates) rowss with
  | None => is_panic (pe_calls scripted p sz e calls (fates, acc))
  | Some (a, st, oks) => exists e', pe_calls scripted p sz e calls (fates, acc) = Ret (e', (cl_fates st, acc ++ pwritten nl a), map verdict oks)
      /\ pe_has B nl e' (cl_past st) (cl_held st) (cl_rows st) /\ psound nl from bound a
  end.
Proof.
  intros Hs HF HB Hz HBd. assert (Hc : 0 < cap) by (destruct HF; destruct cap; cbn in *; lia).
  change (2 ^ 32)%N with 4294967296%N in *. change (4294967296 - 2)%N with 4294967294%N in *.
  induction 1 as [|c r calls rowss HC _ IH]; intros e past R rows fates acc HI GR HL IN.
  - cbn [history pe_calls map pwritten cl_fates cl_past cl_held cl_rows]. rewrite app_nil_r. exists e. split; [reflexivity|]. split; [exact HI|constructor].
  - cbn [history pe_calls]. unfold calls_rows in HL, IN. cbn [map concat] in HL, IN. fold (calls_rows rowss) in HL, IN. rewrite app_length in HL.
    rewrite somes_app in IN. apply incl_app_inv in IN. destruct IN as [IN1 IN2].
    assert (CA : pcall_as B nl from bound acc (prim_call nl (checks p) sz B cap (mk_col past R rows fates) r)
       (match c with Some b => pe_encode scripted p sz (Datatypes.S (pb_len b)) e b (fates, acc) | None => pe_flush scripted p sz e (fates, acc) end)).
    { destruct c as [buf|], r as [b|]; cbn in HC; try contradiction; cbn [call_rows] in *.
      - apply encode_pcall; auto; [change (2 ^ 32 - 2)%N with 4294967294%N; lia|lia].
      - apply flush_pcall; auto. change (2 ^ 32)%N with 4294967296%N. lia. }
    unfold sink_fn in *. destruct (prim_call nl (checks p) sz B cap (mk_col past R rows fates) r) as [[[a st] ok]|] eqn:EP; cbn [pcall_as] in CA.
    2:{ destruct CA as [kk ->]. eexists; reflexivity. }
    apply held_grows in EP; [|exact Hc].
    destruct CA as (e1 & -> & I1 & S1 & G1). rewrite bind_ret. destruct st as [past1 R1 rows1 fates1]. cbn [cl_fates cl_past cl_held cl_rows] in *.
    specialize (IH e1 past1 R1 rows1 fates1 (acc ++ pwritten nl a) I1 G1 ltac:(lia) IN2).
    destruct (history (prim_call nl (checks p) sz B cap) _ rowss) as [[[a2 st2] oks]|].
    2:{ destruct IH as [kk ->]. eexists; reflexivity. }
    destruct IH as (e2 & -> & I2 & S2). rewrite bind_ret. exists e2. cbn [map]. unfold pwritten. rewrite map_app, app_assoc. split; [reflexivity|]. split; [exact I2|].
    apply Forall_app. split; assumption.
Qed.
End Fail.

(** C55, every history of a fixed-width column: calls of [encode] and [flush] in
    any order on a new encoder, going on after failed calls, with a sink that
    rejects any blocks.  [prim_call] says, call by call, which blocks are accepted
    and with which identifiers, what is held back then and whether the call fails;
    if it says nothing the history panics. *)
Theorem C55_history_exact : forall p sz B cap nl calls rowss fates,
  0 < sz -> (N.of_nat sz < 2 ^ 31)%N -> (0 < B < 2 ^ 32)%N -> (B <= N.of_nat (cap * sz) < B + N.of_nat sz)%N ->
  Forall2 (pcall_holds nl) calls rowss ->
  (N.of_nat (length (calls_rows rowss)) <= 2 ^ 32 - 8)%N -> fit sz (calls_rows rowss) ->
  match history (prim_call nl (checks p) sz B cap) (mk_col [] [] 0%N fates) rowss with
  | Some (accepted, st, oks) =>
      exists e blocks, pe_calls scripted p sz (pe_new B nl) calls (fates, []) = Ret (e, (cl_fates st, blocks), map verdict oks)
        /\ map fst blocks = map fst accepted /\ reads_blocks p sz nl blocks (map (fun a => snd (snd a)) accepted)
        /\ pe_rows e = cl_rows st /\ pb_values (pe_remaining e) = somes (cl_held st)
  | None => is_panic (pe_calls scripted p sz (pe_new B nl) calls (fates, []))
  end.
Proof.
  intros p sz B cap nl calls rowss fates Hs Hz HB HF HC HL HV.
  change (2 ^ 32)%N with 4294967296%N in *. change (4294967296 - 8)%N with 4294967288%N in HL.
  pose proof (pcalls_ok p sz B cap nl (calls_rows rowss) (length (calls_rows rowss)) Hs HF HB Hz) as PC.
  change (2 ^ 32 - 2)%N with 4294967294%N in PC.
  assert (L1 : (N.of_nat (length (calls_rows rowss)) <= 4294967294)%N) by (clear -HL; lia).
  assert (L2 : length (@nil (option N)) + length (calls_rows rowss) <= length (calls_rows rowss)) by (clear; cbn [length]; lia).
  specialize (PC L1 calls rowss HC (pe_new B nl) [] [] 0%N fates [] (pe_has_new B nl) (good_nil _ _ _) L2 (incl_refl _)).
  destruct (history (prim_call nl (checks p) sz B cap) _ rowss) as [[[a st] oks]|]; [|exact PC].
  destruct PC as (e & E & I & SO). exists e, (pwritten sz nl a). split; [exact E|]. split; [unfold pwritten; rewrite map_map; reflexivity|].
  split; [|destruct I as (V & _ & _ & _ & _ & RR); split; assumption].
  unfold reads_blocks, pwritten. rewrite !map_map. apply map_ext_in. intros [id [n w]] Hin. cbn [snd].
  unfold psound in SO. rewrite Forall_forall in SO. destruct (SO _ Hin) as (A & AB & C & D). cbn [snd] in *.
  apply read_prim_block; auto; [change (2 ^ 32)%N with 4294967296%N; clear -C HL; lia|intros _; change (2 ^ 32 - 8)%N with 4294967288%N; clear -C HL; lia|].
  unfold fit in *. rewrite Forall_forall in *. auto.
Qed.
Print Assumptions C55_history_exact.

(** Values of two bytes, block size 4.  The first call writes one block and its
    second block is rejected.  Encoding the buffer again repeats the first block,
    under an identifier that counts the rejected one.  Then a flush is rejected, a
    buffer completes the rows held back without writing them, and both of the
    flushes that follow write them. *)
Definition pfail_rows : list (option (list (option N))) :=
  let v := @Some N in let b := [v 1; v 2; v 3; None; v 4; v 5]%N in [Some b; Some b; None; Some [None; v 6]; None; None]%N.

Example C55_history_witness :
  match history (prim_call true true 2 4 2) (mk_col [] [] 0%N [true; false; true; true; false]) pfail_rows with
  | Some (accepted, st, oks) =>
      map (fun a => (fst a, snd (snd a))) accepted
      = [(1, [Some 1; Some 2]); (8, [Some 1; Some 2]); (13, [Some 3; None; Some 4]); (17, [Some 5; None; Some 6]); (20, [Some 5; None; Some 6])]%N
      /\ cl_held st = [Some 5; None; Some 6]%N /\ cl_rows st = 21%N /\ oks = [false; true; false; true; true; true]
  | None => False end
  /\ match pb_fill true (map call_rows pfail_rows) with
     | Ret [b1; b2; _; b4; _; _] =>
         match pe_calls scripted Debug 2 (pe_new 4 true) [Some b1; Some b2; None; Some b4; None; None] ([true; false; true; true; false], []) with
         | Ret (e, (_, blocks), ress) => map fst blocks = [1; 8; 13; 17; 20]%N /\ pe_rows e = 21%N
         | _ => False end
     | _ => False end.
Proof. vm_compute. repeat split. Qed.
