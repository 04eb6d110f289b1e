(** Property C104: fixed-width columns whose panics are caught and whose failed
    writes are passed over (raw/primitive_enc.rs). *)
From Verif Require Import Base BaseProofs Spec SpecRows SpecBin Varint VarintProofs Buffers Observe BitmapProofs BuffersProofs
  Rle RleTrackProofs PropsRle Sink PrimEnc ReadBlock ObserveEnc RowsProofs BlockProofs PrimEncProofs PrimRunProofs BinEncProofs
  PropsPrim PropsPrimRows PropsPrimIds PropsPrimErr PropsPrimAny PropsPrimAll PropsPrimAllErr Caught PropsCaughtBuf PropsCaughtEnc.
Open Scope nat_scope.

(** * The calls of the encoder *)

Inductive fix_call := FEncode (buf : prim_buf N) | FFlush.

Section Calls.
Context {S : Type} (wr : sink_fn S) (p : profile) (sz : nat).

(** One call, and how it ends. *)
Definition fix_step (x : prim_enc * S) (c : fix_call) : caught (prim_enc * S) (result unit) :=
  match c with
  | FEncode buf => pe_encode_at wr p sz (Datatypes.S (pb_len buf)) (fst x) buf (snd x)
  | FFlush => pe_flush_at wr p sz (fst x) (snd x)
  end.

(** Going on whatever the calls do. *)
Fixpoint fix_anyway (x : prim_enc * S) (calls : list fix_call) : (prim_enc * S) * list (outcome (result unit)) :=
  match calls with
  | [] => (x, [])
  | c :: rest => let r := fix_step x c in let y := fix_anyway (fst r) rest in (fst y, snd r :: snd y)
  end.
End Calls.

(** * What they do, in rows *)

(** The rows held back, those held back and written before, and the number of
    rows counted. *)
Record col_state := mk_col { cs_past : list (list (option N)); cs_held : list (option N); cs_rows : N }.

Section Rows.
Context {S : Type} (wr : sink_fn S) (sz : nat) (nl : bool).

(** Blocks given to the sink until one is refused or the rows can no longer be
    counted; a block is counted before it is given to the sink. *)
Fixpoint offer_blocks (rows : N) (items : list (nat * list (option N))) (s : S) : N * S * outcome (result unit) :=
  match items with
  | [] => (rows, s, Ret (Ok tt))
  | (n, w) :: rest =>
      let rows' := (rows + N.of_nat n)%N in
      if (rows' <=? 4294967295)%N then
        match wr s (rows' - 1)%N (prim_block sz nl w) with
        | (s', Ok _) => offer_blocks rows' rest s'
        | (s', Err) => (rows', s', Ret Err)
        end
      else (rows, s, Panic PExpect)
  end.

Definition well {A} (out : outcome (result A)) : bool := match out with Ret (Ok _) => true | _ => false end.

(** A buffer with the rows [Some b], or a flush.  See [col_all] (PropsPrimAll.v)
    for what a buffer does; a call that does not end well keeps the rows it has
    held back, and holds back nothing of the rest of its buffer. *)
Definition col_call (checked : bool) (B : N) (cap : nat) (st : col_state) (s : S) (c : option (list (option N)))
  : col_state * S * outcome (result unit) :=
  match c with
  | Some b =>
      match cs_held st with
      | [] =>
          let '(rows, s, out) := offer_blocks (cs_rows st) (counted nl 0 (cut cap b)) s in
          (mk_col (cs_past st) (if well out then rest_of cap b else []) rows, s, out)
      | held =>
          let larger := (B <? N.of_nat (num_vals held * sz))%N in
          if larger && checked then (st, s, Panic POverflow)
          else
            let k := if larger then num_vals b else min (cap - num_vals held) (num_vals b) in
            let held' := held ++ take_vals k b in
            if (N.of_nat (num_vals held') <? B)%N then (mk_col (cs_past st) held' (cs_rows st), s, Ret (Ok tt))
            else
              let '(rows, s, out) := offer_blocks (cs_rows st) (flush_block (seen nl (cs_past st) held')) s in
              if well out then
                let more := drop_vals k b in
                let '(rows, s, out) := offer_blocks rows (counted nl (length (take_vals k b)) (cut cap more)) s in
                (mk_col (held' :: cs_past st) (if well out then rest_of cap more else []) rows, s, out)
              else (mk_col (cs_past st) held' rows, s, out)
      end
  | None =>
      let '(rows, s, out) := offer_blocks (cs_rows st) (flush_block (seen nl (cs_past st) (cs_held st))) s in
      (mk_col (cs_past st) (cs_held st) rows, s, out)
  end.

Fixpoint col_calls (checked : bool) (B : N) (cap : nat) (st : col_state) (s : S) (cs : list (option (list (option N))))
  : col_state * S * list (outcome (result unit)) :=
  match cs with
  | [] => (st, s, [])
  | c :: rest =>
      let '(st, s, out) := col_call checked B cap st s c in
      let '(st, s, outs) := col_calls checked B cap st s rest in
      (st, s, out :: outs)
  end.
End Rows.

(** * The encoder does this *)

Section Does.
Context {S : Type} (wr : sink_fn S) (p : profile) (sz : nat).

Lemma offer_emits nl items : forall rows s,
  match emits wr sz nl rows items s with
  | Ret (rows', s', res) => offer_blocks wr sz nl rows items s = (rows', s', Ret res)
  | Panic k => snd (offer_blocks wr sz nl rows items s) = Panic k
  | NoFuel => False
  end.
Proof.
  induction items as [|[n w] items IH]; intros rows s; cbn [emits offer_blocks]; [reflexivity|]. cbn zeta.
  unfold pe_add_rows. change 4294967295%N with u32_max.
  destruct (N.leb_spec (N.of_nat n) u32_max); cbn [bind].
  - destruct (N.leb_spec (rows + N.of_nat n) u32_max); cbn [bind snd]; [|reflexivity].
    destruct (wr s (rows + N.of_nat n - 1)%N (prim_block sz nl w)) as [s' [[]|]]; [apply IH|reflexivity].
  - destruct (N.leb_spec (rows + N.of_nat n) u32_max); [lia|reflexivity].
Qed.

Lemma offer_one nl rows n w s : offer_blocks wr sz nl rows [(n, w)] s =
  match emits wr sz nl rows [(n, w)] s with
  | Ret (rows', s', res) => (rows', s', Ret res)
  | Panic k => (rows, s, Panic k)
  | NoFuel => (rows, s, NoFuel)
  end.
Proof.
  cbn [offer_blocks emits]. cbn zeta. unfold pe_add_rows. change 4294967295%N with u32_max.
  destruct (N.leb_spec (N.of_nat n) u32_max); cbn [bind].
  - destruct (N.leb_spec (rows + N.of_nat n) u32_max); cbn [bind]; [|reflexivity].
    destruct (wr s (rows + N.of_nat n - 1)%N (prim_block sz nl w)) as [s' [[]|]]; reflexivity.
  - destruct (N.leb_spec (rows + N.of_nat n) u32_max); [lia|reflexivity].
Qed.

Lemma offer_app nl a b : forall rows s, offer_blocks wr sz nl rows (a ++ b) s =
  let '(rows', s', out) := offer_blocks wr sz nl rows a s in if well out then offer_blocks wr sz nl rows' b s' else (rows', s', out).
Proof.
  induction a as [|[n w] a IH]; intros rows s; cbn [app offer_blocks well]; [reflexivity|]. cbn zeta.
  destruct (_ <=? _)%N; [|reflexivity]. destruct (wr s _ _) as [s' [[]|]]; [apply IH|reflexivity].
Qed.

Lemma has_same B nl e e' past R rows : pe_has B nl e past R rows -> pe_remaining e' = pe_remaining e -> pe_min e' = pe_min e -> pe_rows e' = pe_rows e ->
  pe_has B nl e' past R rows.
Proof. unfold pe_has. intros H -> -> ->. exact H. Qed.

Lemma fix_write_panics e buf a z pos s k : snd (pe_write_at wr p sz e buf a z pos s) = Panic k ->
  let x := fst (pe_write_at wr p sz e buf a z pos s) in
  snd x = s /\ pe_remaining (fst x) = pe_remaining e /\ pe_min (fst x) = pe_min e /\ pe_rows (fst x) = pe_rows e.
Proof.
  unfold pe_write_at. destruct (encode_primitive_buffer _ _ _ _ _ _) as [[[enc rle] [n lv]]|k'|]; cbn [pure fst snd]; [|auto..].
  destruct (pe_add_rows (pe_rows e) n) as [rows|k'|] eqn:EA; cbn [pure fst snd]; [|auto..].
  destruct (sub32 p rows 1) as [id|k'|] eqn:ES; cbn [pure fst snd pe_remaining pe_min pe_rows]; [discriminate| |].
  - intros _. repeat split. unfold pe_add_rows in EA. destruct (N.of_nat n <=? u32_max)%N; [|discriminate EA]. destruct (_ <=? _)%N; [|discriminate EA].
    injection EA as EA. unfold sub32, usub in ES. destruct (N.leb_spec 1 rows); [discriminate|]. lia.
  - intros [=].
Qed.

(** A call of [write_block] that offers one block. *)
Lemma write_offers B nl e past R rows buf a z vp s cnt w lvp :
  (forall rows' s' res, emits wr sz nl rows [(cnt, w)] s = Ret (rows', s', res) ->
     exists e', pe_write wr p sz e buf a z vp s = Ret (e', s', match res with Ok _ => Ok lvp | Err => Err end) /\ pe_has B nl e' past R rows' /\ pe_remaining e' = pe_remaining e) ->
  (forall k, emits wr sz nl rows [(cnt, w)] s = Panic k -> pe_write wr p sz e buf a z vp s = Panic k) ->
  emits wr sz nl rows [(cnt, w)] s <> NoFuel ->
  pe_has B nl e past R rows ->
  let '(rows', s', out) := offer_blocks wr sz nl rows [(cnt, w)] s in
  exists e', pe_write_at wr p sz e buf a z vp s = ((e', s'), match out with Ret (Ok _) => Ret (Ok lvp) | Ret Err => Ret Err | Panic k => Panic k | NoFuel => NoFuel end)
    /\ pe_has B nl e' past R rows' /\ pe_remaining e' = pe_remaining e.
Proof.
  intros H1 H2 H3 HI. rewrite offer_one. destruct (emits wr sz nl rows [(cnt, w)] s) as [[[rows' s'] res]|k|]; [| |congruence].
  - destruct (H1 _ _ _ eq_refl) as (e' & E & I & RM). rewrite pe_write_same in E. apply uncaught_known in E. exists e'. rewrite E. destruct res; auto.
  - specialize (H2 _ eq_refl). rewrite pe_write_same in H2. apply uncaught_panic in H2. pose proof (fix_write_panics _ _ _ _ _ _ _ H2) as W. cbn zeta in W.
    destruct (pe_write_at wr p sz e buf a z vp s) as [[e' s'] out]. cbn [fst snd] in *. subst out. destruct W as (-> & W1 & W2 & W3).
    exists e'. split; [reflexivity|]. split; [eapply has_same; eassumption|exact W1].
Qed.

Lemma loop_offers B cap nl past : 0 < sz -> fits sz B cap -> 0 < cap -> (N.of_nat cap < 2 ^ 32)%N -> (N.of_nat sz < 2 ^ 31)%N ->
  forall fuel rest before e rows buf vp s,
  pe_has B nl e past [] rows -> pb_holds buf nl (before ++ rest) ->
  (N.of_nat (length before + length rest) <= 2 ^ 32 - 2)%N ->
  (nl = true -> vp = length before) -> num_vals rest < fuel ->
  let '(rows', s', out) := offer_blocks wr sz nl rows (counted nl (length before) (cut cap rest)) s in
  exists e', pe_loop_at wr p sz fuel e buf (num_vals before) vp s = ((e', s'), out)
    /\ pe_has B nl e' past (if well out then rest_of cap rest else []) rows'.
Proof.
  intros Hs HF Hc Hc32 Hz. change (2 ^ 32)%N with 4294967296%N in *. change (2 ^ 31)%N with 2147483648%N in *.
  change (4294967296 - 2)%N with 4294967294%N.
  induction fuel as [|fuel IH]; intros rest before e rows buf vp s HI HH HL HV Hf; [lia|].
  rewrite cut_step, rest_step by exact Hc. cbn [pe_loop_at].
  assert (LB : pb_len buf = num_vals before + num_vals rest).
  { apply pb_holds_counts in HH. rewrite <- num_vals_app. tauto. }
  rewrite LB. pose proof (somes_length_le rest) as SL. pose proof (somes_length_le before) as SLb. fold (num_vals rest) in SL.
  fold (num_vals before) in SLb.
  assert (HM : pe_min e = B) by apply HI.
  destruct (Nat.ltb_spec (num_vals before) (num_vals before + num_vals rest)) as [Hlt|Hlt].
  2:{ destruct (Nat.leb_spec cap (num_vals rest)); [lia|]. cbn [counted offer_blocks]. eexists; split; [reflexivity|].
      cbn [well]. rewrite trim_none_only by lia. exact HI. }
  rewrite HM, (pe_chunk_ok p sz _ _ B cap Hs HF) by (unfold u64_lim; lia). cbn [pure].
  destruct (Nat.leb_spec cap (num_vals rest)) as [Hf2|Hf2].
  - replace (min (num_vals before + num_vals rest) (num_vals before + cap)) with (num_vals before + cap) by lia.
    replace (num_vals before + cap - num_vals before) with cap by lia.
    destruct (N.ltb_spec (N.of_nat (cap * sz)) B) as [X|_]; [destruct HF; lia|].
    set (w := take_vals cap rest). set (rest' := drop_vals cap rest).
    assert (HW : num_vals w = cap) by (unfold w; rewrite num_take; lia).
    assert (HWE : ends_some w) by (apply take_ends; exact Hf2).
    assert (HWN : w <> []) by (intros E; rewrite E in HW; unfold num_vals in HW; cbn in HW; lia).
    assert (ER : rest = w ++ rest') by (symmetry; apply take_drop).
    assert (ELen : length rest = length w + length rest') by (rewrite ER, app_length; reflexivity).
    cbn [counted].
    pose proof (pe_write_window wr p sz B nl e past [] rows buf before w rest' vp s HI) as PW.
    rewrite <- ER in PW. rewrite HW in PW.
    specialize (PW HH HWE HWN). change (2 ^ 32)%N with 4294967296%N in PW.
    specialize (PW ltac:(lia) ltac:(unfold u64_lim; nia) HV).
    change ((?x, w) :: ?l) with ([(x, w)] ++ l). rewrite offer_app.
    set (cnt := if nl then length before + length w else length w) in *.
    pose proof (write_offers B nl e past [] rows buf (num_vals before) (num_vals before + cap) vp s cnt w (if nl then length before + length w else 0)) as WO.
    assert (WO1 : forall rows' s' res, emits wr sz nl rows [(cnt, w)] s = Ret (rows', s', res) ->
      exists e', pe_write wr p sz e buf (num_vals before) (num_vals before + cap) vp s = Ret (e', s', match res with Ok _ => Ok (if nl then length before + length w else 0) | Err => Err end)
        /\ pe_has B nl e' past [] rows' /\ pe_remaining e' = pe_remaining e) by (intros rows' s' res E; rewrite E in PW; exact PW).
    assert (WO2 : forall k, emits wr sz nl rows [(cnt, w)] s = Panic k -> pe_write wr p sz e buf (num_vals before) (num_vals before + cap) vp s = Panic k)
      by (intros k E; rewrite E in PW; exact PW).
    assert (WO3 : emits wr sz nl rows [(cnt, w)] s <> NoFuel) by (intros E; rewrite E in PW; exact PW).
    specialize (WO WO1 WO2 WO3 HI). clear PW WO1 WO2 WO3.
    destruct (offer_blocks wr sz nl rows [(cnt, w)] s) as [[rows1 s1] out1]. destruct WO as (e1 & WE & I1 & _). cbn zeta. rewrite WE. cbn [fst snd].
    destruct out1 as [[[]|]|k|]; cbn [well pure]; [|exists e1; split; [reflexivity|exact I1]..].
    specialize (IH rest' (before ++ w) e1 rows1 buf (if nl then length before + length w else 0) s1 I1).
    rewrite <- app_assoc, <- ER in IH. specialize (IH HH).
    rewrite app_length, num_vals_app, HW in IH.
    specialize (IH ltac:(lia)).
    assert (HV' : nl = true -> (if nl then length before + length w else 0) = length before + length w) by (intros ->; reflexivity).
    specialize (IH HV'). apply IH. unfold rest'. rewrite num_drop. lia.
  - replace (min (num_vals before + num_vals rest) (num_vals before + cap)) with (num_vals before + num_vals rest) by lia.
    replace (num_vals before + num_vals rest - num_vals before) with (num_vals rest) by lia.
    destruct (N.ltb_spec (N.of_nat (num_vals rest * sz)) B) as [_|X]; [|destruct HF; nia].
    cbn [counted offer_blocks].
    pose proof (pe_has_len _ _ _ _ _ _ HI) as [HL0 HN0].
    assert (ER : rest = trim rest ++ drop_vals (num_vals rest) rest) by (symmetry; apply take_drop).
    assert (HA : rows_allowed nl (trim rest)).
    { apply holds_allowed in HH. apply allowed_app in HH. apply allowed_take. tauto. }
    pose proof (pb_append_from_eq (pe_remaining e) buf nl before (trim rest) (drop_vals (num_vals rest) rest)) as PA.
    rewrite <- ER in PA. specialize (PA HH HN0 (trim_ends rest)).
    fold (num_vals (trim rest)) (num_vals before) in PA. rewrite num_trim, HL0 in PA.
    unfold num_vals at 1 in PA. cbn [somes length] in PA.
    assert (EQ : pb_append_from (pe_remaining e) buf (num_vals before) (num_vals before + num_vals rest) vp
               = pb_append_from (pe_remaining e) buf (num_vals before) (num_vals before + num_vals rest) (length before)).
    { destruct nl; [rewrite HV by reflexivity; reflexivity|]. eapply validity_pos_irrelevant; eauto. }
    specialize (PA ltac:(unfold u32_max; lia)).
    destruct (pe_has_extend B nl e past [] rows (trim rest) HI HA (trim_ends rest)) as (b & EB & I'). rewrite EB, bind_ret in PA. rewrite <- EQ in PA.
    rewrite pb_append_from_same in PA. apply uncaught_pair in PA. rewrite PA. cbn [fst snd pure].
    eexists; split; [reflexivity|exact I'].
Qed.

Lemma held_offers B nl e past R rows s : 0 < sz ->
  pe_has B nl e past R rows -> R <> [] -> (N.of_nat (length R) <= 2 ^ 32)%N -> (N.of_nat (sz * num_vals R) < u64_lim)%N ->
  let '(rows', s', out) := offer_blocks wr sz nl rows (flush_block (seen nl past R)) s in
  exists e' v, pe_write_remaining_at wr p sz e s = ((e', s'), match out with Ret (Ok _) => Ret (Ok v) | Ret Err => Ret Err | Panic k => Panic k | NoFuel => NoFuel end)
    /\ pe_has B nl e' past R rows' /\ pe_remaining e' = pe_remaining e.
Proof.
  intros Hs HI HN HL HZ. pose proof (pe_write_held wr p sz B nl e past R rows s Hs HI HN HL HZ) as PW. cbn zeta in PW.
  assert (HE : ends_some R) by apply HI. destruct (seen_spec nl past R HE) as (S1 & _).
  assert (EF : flush_block (seen nl past R) = [(length (seen nl past R), seen nl past R)]).
  { destruct (seen nl past R) eqn:E; [|reflexivity]. pose proof (nonempty_num R HE HN) as HP. unfold num_vals in HP. rewrite <- S1 in HP. cbn in HP. lia. }
  rewrite EF. set (w := seen nl past R) in *. rewrite offer_one. unfold pe_write_remaining, pe_write_remaining_at in *.
  destruct (emits wr sz nl rows [(length w, w)] s) as [[[rows' s'] res]|k|]; [| |contradiction].
  - destruct PW as (e' & v & E & I & RM). rewrite pe_write_same in E. apply uncaught_known in E. exists e', v. rewrite E. destruct res; auto.
  - rewrite pe_write_same in PW. apply uncaught_panic in PW. pose proof (fix_write_panics _ _ _ _ _ _ _ PW) as W. cbn zeta in W.
    destruct (pe_write_at wr p sz e _ _ _ _ s) as [[e' s'] out]. cbn [fst snd] in *. subst out. destruct W as (-> & W1 & W2 & W3).
    exists e', 0. split; [reflexivity|]. split; [eapply has_same; eassumption|exact W1].
Qed.

Lemma encode_offers B cap nl e st buf b s : 0 < sz -> fits sz B cap -> (0 < B < 2 ^ 32)%N -> (N.of_nat sz < 2 ^ 31)%N ->
  pe_has B nl e (cs_past st) (cs_held st) (cs_rows st) -> pb_holds buf nl b ->
  (N.of_nat (length (cs_held st) + length b) <= 2 ^ 32 - 2)%N ->
  let '(st', s', out) := col_call wr sz nl (checks p) B cap st s (Some b) in
  exists e', pe_encode_at wr p sz (Datatypes.S (pb_len buf)) e buf s = ((e', s'), out)
    /\ pe_has B nl e' (cs_past st') (cs_held st') (cs_rows st') /\ length (cs_held st') <= length (cs_held st) + length b.
Proof.
  intros Hs HF HB Hz HI HH HL. destruct st as [past R rows]. cbn [cs_past cs_held cs_rows col_call] in *.
  change (2 ^ 32)%N with 4294967296%N in *. change (2 ^ 31)%N with 2147483648%N in *.
  change (4294967296 - 2)%N with 4294967294%N in *.
  assert (HA : rows_allowed nl b) by (eapply holds_allowed; eauto).
  pose proof (pe_has_len _ _ _ _ _ _ HI) as [HL0 HN0].
  pose proof (somes_length_le R) as NR. fold (num_vals R) in NR. pose proof (somes_length_le b) as NB. fold (num_vals b) in NB.
  assert (LB : pb_len buf = num_vals b) by (apply pb_holds_counts in HH; tauto).
  assert (HM : pe_min e = B) by apply HI.
  assert (Hc : 0 < cap) by (destruct HF; destruct cap; cbn in *; lia).
  assert (Hcap : (N.of_nat cap < 4294967296)%N) by (destruct HF; nia).
  destruct R as [|r0 R0].
  { (* nothing is held back *)
    pose proof (loop_offers B cap nl past Hs HF Hc Hcap Hz (Datatypes.S (pb_len buf)) b [] e rows buf 0 s HI HH) as PL.
    change (2 ^ 32 - 2)%N with 4294967294%N in PL. cbn [length Nat.add] in PL, HL.
    specialize (PL HL (fun _ => eq_refl) ltac:(lia)).
    assert (EE : pe_encode_at wr p sz (Datatypes.S (pb_len buf)) e buf s = pe_loop_at wr p sz (Datatypes.S (pb_len buf)) e buf (num_vals (@nil (option N))) 0 s).
    { unfold pe_encode_at. rewrite HL0. reflexivity. }
    rewrite EE. destruct (offer_blocks wr sz nl rows (counted nl 0 (cut cap b)) s) as [[rows' s'] out].
    destruct PL as (e' & E & I). exists e'. split; [exact E|]. cbn [cs_past cs_held cs_rows]. split; [exact I|].
    pose proof (rest_length cap b Hc). destruct (well out); cbn [length]; lia. }
  set (R := r0 :: R0) in *. assert (HN : R <> []) by discriminate. clearbody R. clear r0 R0. cbn zeta.
  set (larger := (B <? N.of_nat (num_vals R * sz))%N) in *.
  set (k := if larger then num_vals b else min (cap - num_vals R) (num_vals b)) in *.
  set (R' := R ++ take_vals k b) in *.
  assert (HP : 0 < num_vals R) by (apply nonempty_num; [apply HI|exact HN]).
  assert (KB : k <= num_vals b) by (unfold k; destruct larger; lia).
  destruct (larger && checks p) eqn:LC.
  { apply andb_true_iff in LC. destruct LC as [L C]. destruct p; [|discriminate C].
    unfold larger in L. apply N.ltb_lt in L. unfold pe_encode_at. rewrite HL0. destruct (Nat.ltb_spec 0 (num_vals R)); [|lia].
    rewrite HM. unfold sub64, usub. destruct (N.leb_spec (N.of_nat (num_vals R * sz)) B); [lia|]. cbn [pure]. exists e. cbn [cs_past cs_held cs_rows].
    split; [reflexivity|]. split; [exact HI|lia]. }
  set (w := take_vals k b) in *.
  assert (EB : b = [] ++ w ++ drop_vals k b) by (symmetry; apply take_drop).
  assert (HW : num_vals w = k) by (unfold w; rewrite num_take; lia).
  assert (HWE : ends_some w) by (apply take_ends; lia).
  assert (LW : length w + length (drop_vals k b) = length b) by (unfold w; rewrite <- app_length, take_drop; reflexivity).
  assert (HAW : rows_allowed nl w) by (apply allowed_take; exact HA).
  assert (CH : exists want, sub64 p B (N.of_nat (num_vals R * sz)) = Ret want /\ pe_chunk p sz (num_vals b) 0 want = Ret k).
  { unfold larger in *. destruct (N.ltb_spec B (N.of_nat (num_vals R * sz))) as [L|L].
    - cbn [andb] in LC. unfold k. clear R' k KB w EB HW LW HWE HAW.
      destruct p; [discriminate LC|]. unfold sub64, usub.
      destruct (N.leb_spec (N.of_nat (num_vals R * sz)) B); [lia|]. eexists; split; [reflexivity|].
      assert (BIG : (9223372036854775808 <= B + u64_lim - N.of_nat (num_vals R * sz))%N).
      { assert (N.of_nat (num_vals R * sz) <= 9223372036854775808)%N by (rewrite Nat2N.inj_mul; nia). unfold u64_lim. lia. }
      assert (SML : (B + u64_lim - N.of_nat (num_vals R * sz) < u64_lim)%N) by lia.
      set (want := (B + u64_lim - N.of_nat (num_vals R * sz))%N) in *. clearbody want.
      unfold pe_chunk. cbn zeta.
      assert (Q : (4294967296 <= want / N.of_nat sz)%N).
      { apply N.div_le_lower_bound; [lia|]. nia. }
      assert (Q2 : (want / N.of_nat sz + (if want mod N.of_nat sz =? 0 then 0 else 1) < u64_lim)%N).
      { pose proof (N.div_mod want (N.of_nat sz) ltac:(lia)) as D.
        set (q := (want / N.of_nat sz)%N) in *. set (r := (want mod N.of_nat sz)%N) in *.
        destruct (N.eqb_spec r 0); nia. }
      rewrite add64_ok by lia. rewrite bind_ret. f_equal.
      set (f := if (want mod N.of_nat sz =? 0)%N then 0%N else 1%N) in *. clearbody f.
      set (q := (want / N.of_nat sz)%N) in *. clearbody q.
      destruct (N.ltb_spec (N.of_nat (num_vals b)) (N.of_nat 0 + (q + f))); lia.
    - rewrite sub64_ok by exact L. eexists; split; [reflexivity|].
      assert (HF2 : fits sz (B - N.of_nat (num_vals R * sz)) (cap - num_vals R)).
      { destruct HF as [F1 F2]. split; rewrite Nat.mul_sub_distr_r; nia. }
      rewrite (pe_chunk_ok p sz _ 0 _ _ Hs HF2) by (unfold u64_lim; lia). unfold k. f_equal. lia. }
  destruct CH as (want & E1 & E2).
  assert (HH2 := HH). rewrite EB in HH2.
  pose proof (pb_append_from_eq (pe_remaining e) buf nl [] w (drop_vals k b) HH2 HN0 HWE) as PA.
  fold (num_vals w) in PA. cbn [somes length Nat.add] in PA. rewrite HW, HL0 in PA.
  specialize (PA ltac:(unfold u32_max; lia)).
  destruct (pe_has_extend B nl e past R rows w HI HAW HWE) as (b' & EA & I'). rewrite EA, bind_ret in PA. fold R' in I'.
  rewrite pb_append_from_same in PA. apply uncaught_pair in PA.
  pose proof (pe_has_len _ _ _ _ _ _ I') as [HL1 HN1].
  assert (LR : length R' <= length R + length b) by (unfold R'; rewrite app_length; lia).
  unfold pe_encode_at. rewrite HL0. destruct (Nat.ltb_spec 0 (num_vals R)); [|lia].
  rewrite HM, E1. cbn [pure]. rewrite LB, E2. cbn [pure]. cbn zeta. rewrite PA. cbn [fst snd pure]. rewrite HL1. cbn [pe_min pe_set_remaining].
  rewrite HM.
  destruct (N.ltb_spec (N.of_nat (num_vals R')) B) as [LT|GE].
  { eexists; split; [reflexivity|]. cbn [cs_past cs_held cs_rows]. split; [exact I'|exact LR]. }
  fold (pe_set_remaining e b'). set (e1 := pe_set_remaining e b') in *.
  assert (HNW : R' <> []) by (unfold R'; destruct R; [congruence|discriminate]).
  assert (NR' : num_vals R' <= length R') by apply somes_length_le.
  pose proof (held_offers B nl e1 past R' rows s Hs I' HNW) as PW.
  change (2 ^ 32)%N with 4294967296%N in PW.
  specialize (PW ltac:(lia) ltac:(unfold u64_lim; rewrite Nat2N.inj_mul; nia)).
  destruct (offer_blocks wr sz nl rows (flush_block (seen nl past R')) s) as [[rows1 s1] out1].
  destruct PW as (e2 & v & WE & I2 & R2). rewrite WE. cbn [fst snd].
  destruct out1 as [[[]|]|x|]; cbn [well pure]; [|exists e2; split; [reflexivity|]; cbn [cs_past cs_held cs_rows]; split; [exact I2|exact LR]..].
  pose proof (pe_has_clear _ _ _ _ _ _ I2) as I3.
  pose proof (loop_offers B cap nl (R' :: past) Hs HF Hc Hcap Hz (Datatypes.S (num_vals b)) (drop_vals k b) w
                (pe_set_remaining e2 (pb_clear (pe_remaining e2))) rows1 buf (if nl then length w else k) s1 I3) as PL.
  cbn [app] in EB. rewrite <- EB in PL. change (2 ^ 32)%N with 4294967296%N in PL.
  specialize (PL HH ltac:(lia) ltac:(intros ->; reflexivity)).
  assert (NS : num_vals (drop_vals k b) < Datatypes.S (num_vals b)) by (rewrite num_drop; lia).
  specialize (PL NS). rewrite HW in PL.
  destruct (offer_blocks wr sz nl rows1 _ s1) as [[rows2 s2] out2].
  destruct PL as (e3 & LE & I4). exists e3. split; [exact LE|]. cbn [cs_past cs_held cs_rows]. split; [exact I4|].
  pose proof (rest_length cap (drop_vals k b) Hc). destruct (well out2); cbn [length]; lia.
Qed.

Lemma flush_offers B nl e st s : 0 < sz -> (N.of_nat sz < 2 ^ 31)%N ->
  pe_has B nl e (cs_past st) (cs_held st) (cs_rows st) -> (N.of_nat (length (cs_held st)) <= 2 ^ 32)%N ->
  forall checked cap,
  let '(st', s', out) := col_call wr sz nl checked B cap st s None in
  exists e', pe_flush_at wr p sz e s = ((e', s'), out) /\ pe_has B nl e' (cs_past st') (cs_held st') (cs_rows st') /\ cs_held st' = cs_held st.
Proof.
  intros Hs Hz I LH checked cap. destruct st as [past R rows]. cbn [cs_past cs_held cs_rows col_call] in *.
  change (2 ^ 32)%N with 4294967296%N in *. change (2 ^ 31)%N with 2147483648%N in *.
  assert (HS : num_vals R <= length R) by apply somes_length_le.
  pose proof (pe_has_len _ _ _ _ _ _ I) as [HL0 _]. unfold pe_flush_at. rewrite HL0.
  destruct R as [|r0 R0].
  - assert (seen nl past [] = (@nil (option N))) as -> by (unfold seen; destruct nl; reflexivity).
    cbn [flush_block offer_blocks num_vals somes length Nat.ltb Nat.leb]. exists e. split; [reflexivity|]. split; [exact I|reflexivity].
  - set (R := r0 :: R0) in *. assert (HN : R <> []) by discriminate. clearbody R. clear r0 R0.
    pose proof (nonempty_num R ltac:(apply I) HN) as HP. destruct (Nat.ltb_spec 0 (num_vals R)); [|lia].
    pose proof (held_offers B nl e past R rows s Hs I HN) as PW.
    change (2 ^ 32)%N with 4294967296%N in PW.
    specialize (PW LH ltac:(unfold u64_lim; rewrite Nat2N.inj_mul; nia)).
    destruct (offer_blocks wr sz nl rows (flush_block (seen nl past R)) s) as [[rows' s'] out].
    destruct PW as (e' & v & WE & I2 & _). cbn zeta. rewrite WE. cbn [fst snd]. exists e'. cbn [cs_past cs_held cs_rows].
    split; [destruct out as [[[]|]|k|]; reflexivity|]. split; [exact I2|reflexivity].
Qed.
End Does.

(** A call of the encoder and what it brings. *)
Definition given (nl : bool) (c : fix_call) (b : option (list (option N))) : Prop :=
  match c, b with
  | FEncode buf, Some rows => pb_holds buf nl rows
  | FFlush, None => True
  | _, _ => False
  end.

Definition brought (cs : list (option (list (option N)))) : nat := list_sum (map (fun c => match c with Some b => length b | None => 0 end) cs).

Lemma fix_runs {S} (wr : sink_fn S) p sz B cap nl calls cs : 0 < sz -> (N.of_nat sz < 2 ^ 31)%N -> (0 < B < 2 ^ 32)%N ->
  fits sz B cap -> Forall2 (given nl) calls cs ->
  forall e st s, pe_has B nl e (cs_past st) (cs_held st) (cs_rows st) -> (N.of_nat (length (cs_held st) + brought cs) <= 2 ^ 32 - 2)%N ->
  let '(st', s', outs) := col_calls wr sz nl (checks p) B cap st s cs in
  exists e', fix_anyway wr p sz (e, s) calls = ((e', s'), outs) /\ pe_has B nl e' (cs_past st') (cs_held st') (cs_rows st')
    /\ length (cs_held st') <= length (cs_held st) + brought cs.
Proof.
  intros Hs Hz HB HF HG. change (2 ^ 32 - 2)%N with 4294967294%N.
  induction HG as [|c b calls cs G HG IH]; intros e st s HI L; cbn [fix_anyway col_calls].
  - exists e. split; [reflexivity|]. split; [exact HI|lia].
  - cbn [brought map list_sum fold_right] in *. fold (list_sum (map (fun c => match c with Some b => length b | None => 0 end) cs)) in *. fold (brought cs) in *.
    destruct c as [buf|], b as [b|]; cbn [given] in G; try contradiction; cbn [fix_step fst snd].
    + pose proof (encode_offers wr p sz B cap nl e st buf b s Hs HF HB Hz HI G) as E. change (2 ^ 32 - 2)%N with 4294967294%N in E. specialize (E ltac:(lia)).
      destruct (col_call wr sz nl (checks p) B cap st s (Some b)) as [[st1 s1] out1]. destruct E as (e1 & E & I1 & L1). rewrite E. cbn [fst snd].
      specialize (IH e1 st1 s1 I1 ltac:(lia)).
      destruct (col_calls wr sz nl (checks p) B cap st1 s1 cs) as [[st2 s2] outs]. destruct IH as (e2 & -> & I2 & L2). exists e2. split; [reflexivity|]. split; [exact I2|lia].
    + pose proof (flush_offers wr p sz B nl e st s Hs Hz HI) as E. change (2 ^ 32)%N with 4294967296%N in E. specialize (E ltac:(lia) (checks p) cap).
      destruct (col_call wr sz nl (checks p) B cap st s None) as [[st1 s1] out1]. destruct E as (e1 & E & I1 & L1). rewrite E. cbn [fst snd].
      specialize (IH e1 st1 s1 I1 ltac:(rewrite L1; lia)).
      destruct (col_calls wr sz nl (checks p) B cap st1 s1 cs) as [[st2 s2] outs]. destruct IH as (e2 & -> & I2 & L2). exists e2. split; [reflexivity|]. split; [exact I2|rewrite L1 in L2; lia].
Qed.

(** C104, exactly: every history of calls on every fixed-width column of up to
    2^32-2 rows, with every sink, whatever fails or panics and is passed over: what
    is given to the sink, how every call ends, and what is held back. *)
Theorem C104_exact : forall (S : Type) (wr : sink_fn S) p sz B cap nullable calls cs s,
  0 < sz -> (N.of_nat sz < 2 ^ 31)%N -> (0 < B < 2 ^ 32)%N ->
  (B <= N.of_nat (cap * sz) < B + N.of_nat sz)%N ->
  Forall2 (given nullable) calls cs -> (N.of_nat (brought cs) <= 2 ^ 32 - 2)%N ->
  let r := fix_anyway wr p sz (pe_new B nullable, s) calls in
  let '(st, s', outs) := col_calls wr sz nullable (checks p) B cap (mk_col [] [] 0) s cs in
  snd (fst r) = s' /\ snd r = outs /\ pb_values (pe_remaining (fst (fst r))) = somes (cs_held st) /\ pe_rows (fst (fst r)) = cs_rows st.
Proof.
  intros S wr p sz B cap nl calls cs s Hs Hz HB HF HG L.
  pose proof (fix_runs wr p sz B cap nl calls cs Hs Hz HB HF HG (pe_new B nl) (mk_col [] [] 0) s (pe_has_new B nl) L) as X. cbn zeta.
  destruct (col_calls wr sz nl (checks p) B cap (mk_col [] [] 0) s cs) as [[st s'] outs]. destruct X as (e' & -> & (I1 & _ & _ & _ & _ & I2) & _).
  cbn [fst snd]. auto.
Qed.
Print Assumptions C104_exact.

(** A column with nulls whose second block is refused and which is flushed twice. *)
Definition refuses_second : sink_fn (list (N * list N)) := fun s r b => (s ++ [(r, b)], if length s =? 1 then Err else Ok tt).

Example C104_exact_example :
  let cs := [Some [Some 1%N; None; Some 2%N; Some 3%N; Some 4%N; Some 5%N]; None; Some [None; Some 6%N; Some 7%N; None; Some 8%N]; None; None] in
  let calls := map (fun c => match c with Some b => FEncode (values_of true b) | None => FFlush end) cs in
  let r := fix_anyway refuses_second Debug 8 (pe_new 16 true, []) calls in
  let last := (12%N, prim_block 8 true [None; Some 8%N]) in
  col_calls refuses_second 8 true true 16 2 (mk_col [] [] 0) [] cs
  = (mk_col [] [None; Some 8%N] 15,
     [(2%N, prim_block 8 true [Some 1%N; None; Some 2%N]); (7%N, prim_block 8 true [Some 3%N; Some 4%N]); (10%N, prim_block 8 true [None; Some 6%N; Some 7%N]);
      last; (14%N, snd last)],
     [Ret Err; Ret (Ok tt); Ret (Ok tt); Ret (Ok tt); Ret (Ok tt)])
  /\ snd r = [Ret Err; Ret (Ok tt); Ret (Ok tt); Ret (Ok tt); Ret (Ok tt)]
  /\ map fst (snd (fst r)) = [2; 7; 10; 12; 14]%N.
Proof. vm_compute. repeat split. Qed.

(** * Nothing is lost, changed, repeated or moved inside the encoder *)

Definition first_part {A} (t vs : list A) : Prop := exists rest, vs = t ++ rest.

Definition block_values (items : list (nat * list (option N))) : list N := concat (map (fun i => somes (snd i)) items).

Lemma block_values_app a b : block_values (a ++ b) = block_values a ++ block_values b.
Proof. unfold block_values. rewrite map_app, concat_app. reflexivity. Qed.

Lemma counted_values nl ws : forall pos, block_values (counted nl pos ws) = somes (concat ws).
Proof.
  induction ws as [|w ws IH]; intros pos; cbn [counted concat]; [reflexivity|]. change (?x :: ?l) with ([x] ++ l) at 1. rewrite block_values_app, IH, somes_app.
  unfold block_values. cbn [map concat snd]. rewrite app_nil_r. reflexivity.
Qed.

Lemma cut_values nl cap pos (b : list (option N)) : 0 < cap -> block_values (counted nl pos (cut cap b)) ++ somes (rest_of cap b) = somes b.
Proof. intros Hc. rewrite counted_values, <- somes_app, cut_rest, somes_trim by exact Hc. reflexivity. Qed.

Lemma labelled_app sz nl a : forall rows b, labelled sz nl rows (a ++ b) = labelled sz nl rows a ++ labelled sz nl (rows + total (map fst a)) b.
Proof.
  induction a as [|[n w] a IH]; intros rows b; cbn [app labelled map fst total fold_right]; [rewrite N.add_0_r; reflexivity|].
  fold (total (map fst a)). rewrite IH, N.add_assoc. reflexivity.
Qed.

Lemma collected sz nl items : forall rows s, exists a b out, items = a ++ b
  /\ offer_blocks collect sz nl rows items s = ((rows + total (map fst a))%N, s ++ labelled sz nl rows a, out)
  /\ ((out = Ret (Ok tt) /\ b = []) \/ out = Panic PExpect).
Proof.
  induction items as [|[n w] items IH]; intros rows s; cbn [offer_blocks].
  - exists [], [], (Ret (Ok tt)). cbn [map total fold_right labelled app]. rewrite N.add_0_r, app_nil_r. auto.
  - cbn zeta. destruct (rows + N.of_nat n <=? 4294967295)%N.
    + cbn [collect]. destruct (IH (rows + N.of_nat n)%N (s ++ [((rows + N.of_nat n - 1)%N, prim_block sz nl w)])) as (a & b & out & -> & E & O).
      exists ((n, w) :: a), b, out. split; [reflexivity|]. split; [|exact O]. unfold collect in *. rewrite E. cbn [map fst total fold_right labelled]. fold (total (map fst a)).
      rewrite N.add_assoc, <- app_assoc. reflexivity.
    + exists [], ((n, w) :: items), (Panic PExpect). cbn [map total fold_right labelled]. rewrite N.add_0_r, app_nil_r. auto.
Qed.

Lemma ends_join (a b : list (option N)) : ends_some a -> ends_some b -> ends_some (a ++ b).
Proof. intros HA HB. destruct b as [|y b]; [rewrite app_nil_r; exact HA|]. apply ends_app; [exact HB|discriminate]. Qed.

Lemma call_values sz nl checked B cap st s b : 0 < cap -> ends_some (cs_held st) ->
  let '(st', s', out) := col_call collect sz nl checked B cap st s (Some b) in
  ends_some (cs_held st')
  /\ exists items t, s' = s ++ labelled sz nl (cs_rows st) items /\ cs_rows st' = (cs_rows st + total (map fst items))%N
     /\ block_values items ++ somes (cs_held st') = somes (cs_held st) ++ t /\ first_part t (somes b).
Proof.
  intros Hc HE. destruct st as [past R rows]. cbn [cs_past cs_held cs_rows col_call] in *.
  assert (RE : forall x : list (option N), ends_some (rest_of cap x)).
  { intros x. pose proof (cut_rest cap x Hc) as CR. pose proof (trim_ends x) as TE. rewrite <- CR in TE.
    destruct (rest_of cap x) as [|y l]; [left; reflexivity|]. right.
    destruct TE as [TE|(q & v & TE)]; [destruct (concat (cut cap x)); discriminate TE|].
    destruct (exists_last (l := y :: l) ltac:(discriminate)) as (q' & z & EQ). rewrite EQ in TE |- *. rewrite app_assoc in TE. apply app_inj_tail in TE. destruct TE as [_ ->]. eauto. }
  destruct R as [|r0 R0].
  - destruct (collected sz nl (counted nl 0 (cut cap b)) rows s) as (a & z & out & EQ & E & O). rewrite E. cbn [cs_past cs_held cs_rows].
    pose proof (cut_values nl cap 0 b Hc) as CV. rewrite EQ, block_values_app in CV.
    destruct O as [[-> ->]| ->]; cbn [well].
    + split; [apply RE|]. exists a, (somes b). split; [reflexivity|]. split; [reflexivity|]. split; [cbn [somes app]; rewrite <- CV, app_nil_r; reflexivity|exists []; rewrite app_nil_r; reflexivity].
    + split; [left; reflexivity|]. exists a, (block_values a). split; [reflexivity|]. split; [reflexivity|]. split; [cbn [somes app]; rewrite app_nil_r; reflexivity|].
      rewrite <- app_assoc in CV. eexists. symmetry. exact CV.
  - set (R := r0 :: R0) in *. clearbody R. clear r0 R0. cbn zeta.
    destruct ((B <? N.of_nat (num_vals R * sz))%N && checked).
    { cbn [cs_past cs_held cs_rows]. split; [exact HE|]. exists [], []. cbn [labelled map total fold_right app]. rewrite !app_nil_r, N.add_0_r. repeat split. exists (somes b). reflexivity. }
    set (k := if (B <? N.of_nat (num_vals R * sz))%N then num_vals b else min (cap - num_vals R) (num_vals b)).
    assert (KB : k <= num_vals b) by (unfold k; destruct (B <? _)%N; lia). clearbody k.
    assert (HE' : ends_some (R ++ take_vals k b)) by (apply ends_join; [exact HE|apply take_ends; exact KB]).
    assert (SB : somes b = somes (take_vals k b) ++ somes (drop_vals k b)) by (rewrite <- somes_app, take_drop; reflexivity).
    destruct (_ <? B)%N.
    { cbn [cs_past cs_held cs_rows]. split; [exact HE'|]. exists [], (somes (take_vals k b)). cbn [labelled map total fold_right block_values concat app]. rewrite app_nil_r, N.add_0_r, somes_app. repeat split. eexists. exact SB. }
    destruct (seen_spec nl past (R ++ take_vals k b) HE') as (S1 & _).
    assert (BF : block_values (flush_block (seen nl past (R ++ take_vals k b))) = somes R ++ somes (take_vals k b)).
    { rewrite <- somes_app, <- S1. destruct (seen nl past (R ++ take_vals k b)); [reflexivity|]. unfold block_values. cbn [flush_block map concat snd]. apply app_nil_r. }
    destruct (collected sz nl (flush_block (seen nl past (R ++ take_vals k b))) rows s) as (a & z & out & EQ & E & O). rewrite E.
    destruct O as [[-> ->]| ->]; cbn [well].
    + rewrite app_nil_r in EQ. rewrite EQ in BF.
      destruct (collected sz nl (counted nl (length (take_vals k b)) (cut cap (drop_vals k b))) (rows + total (map fst a))%N (s ++ labelled sz nl rows a)) as (a' & z' & out & EQ' & E' & O). rewrite E'.
      cbn [cs_past cs_held cs_rows]. pose proof (cut_values nl cap (length (take_vals k b)) (drop_vals k b) Hc) as CV. rewrite EQ', block_values_app in CV.
      destruct O as [[-> ->]| ->]; cbn [well].
      * split; [apply RE|]. exists (a ++ a'), (somes b). split; [rewrite labelled_app, app_assoc; reflexivity|]. split; [rewrite map_app, total_app; lia|].
        split; [rewrite block_values_app, BF, SB, <- CV, app_nil_r, !app_assoc; reflexivity|exists []; rewrite app_nil_r; reflexivity].
      * split; [left; reflexivity|]. exists (a ++ a'), (somes (take_vals k b) ++ block_values a'). split; [rewrite labelled_app, app_assoc; reflexivity|]. split; [rewrite map_app, total_app; lia|].
        split; [rewrite block_values_app, BF; cbn [somes]; rewrite app_nil_r, !app_assoc; reflexivity|]. rewrite <- app_assoc in CV. eexists. rewrite SB, <- CV, <- app_assoc. reflexivity.
    + cbn [cs_past cs_held cs_rows]. split; [exact HE'|].
      assert (AE : a = []).
      { clear BF. destruct (seen nl past (R ++ take_vals k b)) as [|y l] eqn:ES; cbn [flush_block] in *; [destruct a; [reflexivity|discriminate EQ]|].
        destruct a as [|i a]; [reflexivity|]. exfalso. cbn [app] in EQ. injection EQ as <- EQ. destruct a; [|discriminate EQ].
        cbn [offer_blocks] in E. cbn zeta in E. destruct (_ <=? _)%N in E; [cbn [collect] in E; discriminate E|].
        apply (f_equal (fun t => length (snd (fst t)))) in E. cbn [fst snd labelled] in E. rewrite app_length in E. cbn [length] in E. lia. }
      subst a. exists [], (somes (take_vals k b)). split; [reflexivity|]. split; [reflexivity|]. rewrite somes_app. split; [reflexivity|]. eexists. exact SB.
Qed.

Lemma calls_values sz nl checked B cap bs : 0 < cap -> forall st s, ends_some (cs_held st) ->
  let '(st', s', outs) := col_calls collect sz nl checked B cap st s (map Some bs) in
  exists items ts, s' = s ++ labelled sz nl (cs_rows st) items /\ cs_rows st' = (cs_rows st + total (map fst items))%N
     /\ block_values items ++ somes (cs_held st') = somes (cs_held st) ++ concat ts /\ Forall2 first_part ts (map somes bs).
Proof.
  intros Hc. induction bs as [|b bs IH]; intros st s HE; cbn [map col_calls].
  - exists [], []. cbn [labelled map total fold_right block_values concat app]. rewrite !app_nil_r, N.add_0_r. repeat split. constructor.
  - pose proof (call_values sz nl checked B cap st s b Hc HE) as X.
    destruct (col_call collect sz nl checked B cap st s (Some b)) as [[st1 s1] out]. destruct X as (HE1 & items & t & -> & R1 & V1 & P1).
    specialize (IH st1 (s ++ labelled sz nl (cs_rows st) items) HE1).
    destruct (col_calls collect sz nl checked B cap st1 _ (map Some bs)) as [[st2 s2] outs]. destruct IH as (items2 & ts & -> & R2 & V2 & P2).
    exists (items ++ items2), (t :: ts). split; [rewrite labelled_app, R1, app_assoc; reflexivity|]. split; [rewrite R2, R1, map_app, total_app; lia|].
    split; [rewrite block_values_app, <- app_assoc, V2, app_assoc, V1; cbn [concat]; rewrite app_assoc; reflexivity|]. constructor; assumption.
Qed.

(** C104, what holds: after any buffers, with whatever panics caught, the values of
    the blocks handed over and the values held back are, in order, a first part of
    the values of every call (of all of them where C29 says so).  The blocks are
    numbered by the rows counted for them.  The next flush hands over exactly what is
    held back, and only panics if its rows can no longer be counted. *)
Theorem C104_values : forall p sz B cap nullable (bufs : list (prim_buf N)) (bs : list (list (option N))),
  0 < sz -> (N.of_nat sz < 2 ^ 31)%N -> (0 < B < 2 ^ 32)%N ->
  (B <= N.of_nat (cap * sz) < B + N.of_nat sz)%N ->
  Forall2 (fun buf b => pb_holds buf nullable b) bufs bs -> (N.of_nat (list_sum (map (@length (option N)) bs)) <= 2 ^ 32 - 2)%N ->
  let r := fix_anyway collect p sz (pe_new B nullable, []) (map FEncode bufs) in
  let f := fix_step collect p sz (fst r) FFlush in
  exists items held ts last,
    snd (fst r) = labelled sz nullable 0 items
    /\ pb_values (pe_remaining (fst (fst r))) = held
    /\ concat (map (fun i => somes (snd i)) items) ++ held = concat ts
    /\ Forall2 first_part ts (map somes bs)
    /\ somes last = held
    /\ (last = [] \/ (total (map fst items) + N.of_nat (length last) <= 4294967295)%N ->
        snd f = Ret (Ok tt) /\ snd (fst f) = labelled sz nullable 0 (items ++ flush_block last))
    /\ (last <> [] -> (4294967295 < total (map fst items) + N.of_nat (length last))%N -> snd f = Panic PExpect /\ snd (fst f) = snd (fst r)).
Proof.
  intros p sz B cap nl bufs bs Hs Hz HB HF HH HL.
  assert (Hc : 0 < cap) by (destruct HF; destruct cap; cbn in *; lia).
  assert (HG : Forall2 (given nl) (map FEncode bufs) (map Some bs)) by (clear -HH; induction HH as [|buf b bufs bs H HH IH]; cbn [map]; constructor; [exact H|exact IH]).
  assert (BR : brought (map Some bs) = list_sum (map (@length (option N)) bs)) by (unfold brought; rewrite map_map; reflexivity).
  pose proof (fix_runs collect p sz B cap nl _ _ Hs Hz HB HF HG (pe_new B nl) (mk_col [] [] 0) [] (pe_has_new B nl)) as X.
  cbn [cs_held length Nat.add] in X. rewrite BR in X. specialize (X HL).
  pose proof (calls_values sz nl (checks p) B cap bs Hc (mk_col [] [] 0) [] (or_introl eq_refl)) as Y. cbn zeta.
  destruct (col_calls collect sz nl (checks p) B cap (mk_col [] [] 0) [] (map Some bs)) as [[st s'] outs].
  destruct X as (e' & -> & I & LH). destruct Y as (items & ts & -> & R1 & V & P). cbn [cs_rows cs_held somes app fst snd fix_step] in *. rewrite N.add_0_l in R1.
  assert (HE : ends_some (cs_held st)) by apply I.
  destruct (seen_spec nl (cs_past st) (cs_held st) HE) as (S1 & _).
  exists items, (somes (cs_held st)), ts, (seen nl (cs_past st) (cs_held st)).
  split; [reflexivity|]. split; [apply I|]. split; [exact V|]. split; [exact P|]. split; [exact S1|].
  pose proof (flush_offers collect p sz B nl e' st (labelled sz nl 0 items) Hs Hz I) as F. change (2 ^ 32 - 2)%N with 4294967294%N in *. change (2 ^ 32)%N with 4294967296%N in F. specialize (F ltac:(lia) true 0).
  cbn [col_call] in F. rewrite R1 in F.
  set (w := seen nl (cs_past st) (cs_held st)) in *. clearbody w. rewrite labelled_app, N.add_0_l.
  destruct w as [|y w]; cbn [flush_block offer_blocks labelled] in *.
  - destruct F as (e2 & -> & _). cbn [fst snd]. rewrite app_nil_r. split; [auto|congruence].
  - cbn zeta in F. split.
    + intros [L|L]; [discriminate L|]. destruct (N.leb_spec (total (map fst items) + N.of_nat (length (y :: w))) 4294967295); [|lia].
      cbn [collect] in F. destruct F as (e2 & -> & _). auto.
    + intros _ L. destruct (N.leb_spec (total (map fst items) + N.of_nat (length (y :: w))) 4294967295); [lia|]. destruct F as (e2 & -> & _). auto.
Qed.
Print Assumptions C104_values.

(** Blocks of two values and three calls: the second finds the first value held
    back, the third is cut short by a panic that is caught, the flush writes what is
    held back. *)
Definition fixed_buf (nl : bool) (rows : list (option N)) : prim_buf N := values_of nl rows.

Example C104_values_example :
  let r := fix_anyway collect Debug 8 (pe_new 12 false, []) (map (fun vs => FEncode (fixed_buf false (map Some vs))) [[1; 2; 3]; [4; 5]; [6; 7]]%N) in
  snd r = [Ret (Ok tt); Ret (Ok tt); Panic POverflow]
  /\ snd (fst r) = [(1, prim_block 8 false [Some 1; Some 2])]%N
  /\ pb_values (pe_remaining (fst (fst r))) = [3; 4]%N
  /\ snd (fst (fix_step collect Debug 8 (fst r) FFlush)) = [(1, prim_block 8 false [Some 1; Some 2]); (3, prim_block 8 false [Some 3; Some 4])]%N.
Proof. vm_compute. repeat split. Qed.

(** With overflow checks, a column that holds back more than a block takes nothing
    any more: whatever is called, every [encode] panics, and what is held back never
    changes; only flushes write, and always the same values. *)
Theorem C104_stuck_partial : forall (S : Type) (wr : sink_fn S) sz e s calls,
  (pe_min e < N.of_nat (length (pb_values (pe_remaining e)) * sz))%N ->
  let r := fix_anyway wr Debug sz (e, s) calls in
  pe_remaining (fst (fst r)) = pe_remaining e
  /\ Forall2 (fun c o => match c with FEncode _ => o = Panic POverflow | FFlush => True end) calls (snd r)
  /\ (Forall (fun c => c <> FFlush) calls -> fst r = (e, s)).
Proof.
  intros S wr sz e s calls. revert e s. induction calls as [|c calls IH]; intros e s M; cbn [fix_anyway fst snd].
  { split; [reflexivity|]. split; [constructor|reflexivity]. }
  assert (K : pe_remaining (fst (fst (fix_step wr Debug sz (e, s) c))) = pe_remaining e /\ pe_min (fst (fst (fix_step wr Debug sz (e, s) c))) = pe_min e
    /\ match c with FEncode _ => fix_step wr Debug sz (e, s) c = ((e, s), Panic POverflow) | FFlush => True end).
  { destruct c as [buf|]; cbn [fix_step fst snd].
    - assert (E : pe_encode_at wr Debug sz (Datatypes.S (pb_len buf)) e buf s = ((e, s), Panic POverflow)).
      { unfold pe_encode_at. unfold pb_len at 1. destruct (Nat.ltb_spec 0 (length (pb_values (pe_remaining e)))); [|assert (length (pb_values (pe_remaining e)) = 0) as Z by lia; rewrite Z in M; lia].
        unfold pb_len at 1. unfold sub64, usub. destruct (N.leb_spec (N.of_nat (length (pb_values (pe_remaining e)) * sz)) (pe_min e)); [lia|]. reflexivity. }
      rewrite E. auto.
    - unfold pe_flush_at. destruct (0 <? pb_len (pe_remaining e)); cbn [fst snd]; [|auto]. cbn zeta. unfold pe_write_remaining_at, pe_write_at.
      destruct (encode_primitive_buffer _ _ _ _ _ _) as [[[enc rle] [n lv]]|k|]; cbn [pure fst snd]; [|auto..].
      destruct (pe_add_rows (pe_rows e) n) as [rows|k|]; cbn [pure fst snd pe_remaining pe_min]; [|auto..].
      destruct (sub32 Debug rows 1) as [id|k|]; cbn [pure fst snd pe_remaining pe_min]; [|auto..]. auto. }
  destruct (fix_step wr Debug sz (e, s) c) as [[e1 s1] out]. cbn [fst snd] in *. destruct K as (K1 & K2 & K3).
  destruct (IH e1 s1) as (I1 & I2 & I3); [rewrite K1, K2; exact M|].
  split; [rewrite I1; exact K1|]. split; [constructor; [destruct c; [congruence|exact I]|exact I2]|].
  intros F. inversion F as [|? ? F1 F2]; subst. rewrite (I3 F2). destruct c; [congruence|contradiction].
Qed.
Print Assumptions C104_stuck_partial.

Definition full_up : prim_enc * list (N * list N) := fst (fix_anyway collect Debug 8 (pe_new 12 false, []) [FEncode (fixed_buf false [Some 1%N]); FEncode (fixed_buf false [Some 2%N])]).

Example C104_stuck_example :
  (pe_min (fst full_up) < N.of_nat (length (pb_values (pe_remaining (fst full_up))) * 8))%N
  /\ snd (fix_anyway collect Debug 8 full_up [FEncode (fixed_buf false [Some 3%N]); FFlush; FEncode (fixed_buf false [Some 3%N])]) = [Panic POverflow; Ret (Ok tt); Panic POverflow].
Proof. vm_compute. repeat split. Qed.

(** * A buffer of the other kind *)

Definition plain_values (buf : prim_buf N) : prim_buf N := mk_prim (pb_values buf) None.

Lemma fix_append_other (b buf : prim_buf N) bm s e pos r : pb_validity b = None -> pb_validity buf = Some bm ->
  (exists v, pb_append_from_at b (plain_values buf) s e pos = (r, Ret v)) ->
  pb_append_from_at b buf s e pos = (r, Panic PExpect).
Proof.
  intros VB VS [v X]. revert X. unfold pb_append_from_at, plain_values. cbn [pb_values pb_validity]. rewrite VB, VS.
  destruct (slice (pb_values buf) s e) as [chunk|k|]; cbn [pure]; [|discriminate..]. cbn zeta. destruct (_ <? u32_max)%N; [|discriminate].
  cbn [validity_append_from_at fst snd]. intros [= <- _]. reflexivity.
Qed.

Lemma fix_write_refused p sz e buf a z pos : forall x, snd (pe_write_at refuse p sz e buf a z pos tt) <> Ret (Ok x).
Proof.
  intros x. unfold pe_write_at. destruct (encode_primitive_buffer _ _ _ _ _ _) as [[[enc rle] [n lv]]|k|]; cbn [pure snd]; [|discriminate..].
  destruct (pe_add_rows _ _) as [rows|k|]; cbn [pure snd]; [|discriminate..]. destruct (sub32 _ _ _) as [id|k|]; cbn [pure snd refuse]; discriminate.
Qed.

(** As [C102_other_kind_partial]: an encoder without nulls is given a buffer with
    nulls, whose values alone it would only hold back, even with a sink that takes
    nothing.  The call panics and the values are held back all the same. *)
Theorem C104_other_kind_partial : forall (S : Type) (wr : sink_fn S) s p sz fuel e buf bm e',
  pb_validity (pe_remaining e) = None -> pb_validity buf = Some bm ->
  pe_encode_at refuse p sz fuel e (plain_values buf) tt = ((e', tt), Ret (Ok tt)) ->
  pe_encode_at wr p sz fuel e buf s = ((e', s), if (length (pb_values buf) =? 0) && (length (pb_values (pe_remaining e)) =? 0) then Ret (Ok tt) else Panic PExpect)
  /\ pe_encode_at wr p sz fuel e (plain_values buf) s = ((e', s), Ret (Ok tt)).
Proof.
  intros S wr s p sz fuel e buf bm e' VB VS. unfold pe_encode_at. change (pb_len (plain_values buf)) with (length (pb_values buf)). change (pb_len buf) with (length (pb_values buf)).
  unfold pb_len. cbn zeta.
  destruct (Nat.ltb_spec 0 (length (pb_values (pe_remaining e)))) as [L|L].
  - destruct (Nat.eqb_spec (length (pb_values (pe_remaining e))) 0); [lia|]. rewrite andb_false_r.
    destruct (sub64 p _ _) as [want|k|]; cbn [pure]; [|discriminate..]. destruct (pe_chunk p sz _ 0 want) as [c|k|]; cbn [pure]; [|discriminate..].
    destruct (pb_append_from_at (pe_remaining e) (plain_values buf) 0 c 0) as [b1 [vp|k|]] eqn:AP; cbn [pure fst snd]; [|discriminate..].
    rewrite (fix_append_other (pe_remaining e) buf bm _ _ _ b1 VB VS (ex_intro _ vp AP)). cbn [pure fst snd].
    destruct (_ <? _)%N; [intros [= <-]; auto|]. unfold pe_write_remaining_at.
    match goal with |- context [pe_write_at refuse p sz ?a ?b ?c ?d ?x tt] => pose proof (fix_write_refused p sz a b c d x) as W; destruct (snd (pe_write_at refuse p sz a b c d x tt)) as [[y|]|k|] end; cbn [pure]; try discriminate.
    destruct (W y eq_refl).
  - destruct fuel as [|fuel]; cbn [pe_loop_at]; [discriminate|]. change (pb_len (plain_values buf)) with (length (pb_values buf)). change (pb_len buf) with (length (pb_values buf)).
    destruct (Nat.eqb_spec (length (pb_values (pe_remaining e))) 0); [|lia]. rewrite andb_true_r. destruct (Nat.ltb_spec 0 (length (pb_values buf))) as [O|O].
    2:{ destruct (Nat.eqb_spec (length (pb_values buf)) 0); [|lia]. intros [= <-]. auto. }
    destruct (Nat.eqb_spec (length (pb_values buf)) 0); [lia|]. destruct (pe_chunk p sz _ 0 (pe_min e)) as [c|k|]; cbn [pure]; [|discriminate..].
    destruct (_ <? pe_min e)%N.
    + cbn zeta. destruct (pb_append_from_at (pe_remaining e) (plain_values buf) 0 c 0) as [b1 [vp|k|]] eqn:AP; cbn [pure fst snd]; [|discriminate..].
      rewrite (fix_append_other (pe_remaining e) buf bm _ _ _ b1 VB VS (ex_intro _ vp AP)). cbn [pure fst snd]. intros [= <-]. auto.
    + cbn zeta. pose proof (fix_write_refused p sz e (plain_values buf) 0 c 0) as W. destruct (snd (pe_write_at refuse p sz e (plain_values buf) 0 c 0 tt)) as [[y|]|k|]; cbn [pure]; try discriminate. destruct (W y eq_refl).
Qed.
Print Assumptions C104_other_kind_partial.

(** Values of a call that panicked are in the block of the next flush. *)
Example C104_other_kind_example :
  let nulls := fixed_buf true [Some 7%N; None; Some 8%N] in
  pb_validity nulls <> None
  /\ pe_encode_at refuse Debug 8 4 (pe_new 128 false) (plain_values nulls) tt = ((pe_set_remaining (pe_new 128 false) (plain_values nulls), tt), Ret (Ok tt))
  /\ (let r := fix_anyway collect Debug 8 (pe_new 128 false, []) [FEncode nulls; FFlush] in
      snd r = [Panic PExpect; Ret (Ok tt)] /\ snd (fst r) = [(1%N, prim_block 8 false [Some 7%N; Some 8%N])]).
Proof. vm_compute. split; [discriminate|]. repeat split. Qed.

Lemma offers_more sz nl items rows s : exists l, snd (fst (offer_blocks collect sz nl rows items s)) = s ++ l.
Proof. destruct (collected sz nl items rows s) as (a & b & out & _ & -> & _). cbn [fst snd]. eauto. Qed.

Lemma many_blocks : (4294967295 < total (map fst (counted true 0 (repeat (repeat (Some 7%N) 1) (N.to_nat 92682)))))%N.
Proof. pose proof (counted_repeat (repeat (Some 7%N) 1) (N.to_nat 92682) 0) as CR. rewrite N2Nat.id, repeat_length in CR.
  set (t := total _) in *. clearbody t. change (N.of_nat 0) with 0%N in CR. change (N.of_nat 1) with 1%N in CR. lia. Qed.

(** Blocks of one value of a column with nulls, too many to be counted. *)
Lemma late_panic p buf rows n : pb_holds buf true rows -> (N.of_nat (length rows) <= 4294967294)%N -> 0 < n ->
  cut 1 rows = repeat (repeat (Some 7%N) 1) n -> (4294967295 < total (map fst (counted true 0 (repeat (repeat (Some 7%N) 1) n))))%N ->
  exists e x l, fix_step collect p 8 (pe_new 8 true, []) (FEncode buf) = ((e, x :: l), Panic PExpect).
Proof.
  intros HH LR NZ C1 TT.
  assert (L0 : (N.of_nat (length (cs_held (mk_col [] [] 0)) + length rows) <= 2 ^ 32 - 2)%N) by (change (2 ^ 32 - 2)%N with 4294967294%N; cbn [cs_held length Nat.add]; lia).
  assert (F8 : fits 8 8 1) by (split; vm_compute; [discriminate|reflexivity]).
  assert (B8 : (0 < 8 < 2 ^ 32)%N) by (split; reflexivity). assert (Z8 : (N.of_nat 8 < 2 ^ 31)%N) by reflexivity.
  pose proof (encode_offers collect p 8 8 1 true (pe_new 8 true) (mk_col [] [] 0) buf rows [] (Nat.lt_0_succ 7) F8 B8 Z8 (pe_has_new 8 true) HH L0) as X. clear LR L0 F8 B8 Z8.
  cbn [col_call cs_held cs_past cs_rows] in X. rewrite C1 in X. clear C1.
  pose proof (offer_emits collect 8 true (counted true 0 (repeat (repeat (Some 7%N) 1) n)) 0%N []) as OE. rewrite emits_collect, N.add_0_l in OE.
  destruct (N.leb_spec (total (map fst (counted true 0 (repeat (repeat (Some 7%N) 1) n)))) u32_max) as [L|_]; [unfold u32_max in L; lia|].
  destruct n as [|n]; [lia|]. cbn [repeat counted orb] in OE, X.
  set (more := counted true _ _) in OE, X. clearbody more. clear TT HH.
  assert (GR : exists l x, snd (fst (offer_blocks collect 8 true 0 ((0 + length [Some 7%N], [Some 7%N]) :: more) [])) = x :: l).
  { cbn [offer_blocks length Nat.add]. destruct (N.leb_spec (0 + N.of_nat 1) 4294967295); [|lia]. cbn [collect app].
    destruct (offers_more 8 true more (0 + N.of_nat 1)%N [((0 + N.of_nat 1 - 1)%N, prim_block 8 true [Some 7%N])]) as [l E]. exists l. eexists. exact E. }
  destruct (offer_blocks collect 8 true 0 ((0 + length [Some 7%N], [Some 7%N]) :: more) []) as [[rows' s'] out]. cbn [fst snd] in *. subst out.
  destruct X as (e' & E & _). destruct GR as (l & x & ->). exists e', x, l. exact E.
Qed.

(** C104 does not hold: a column that panicked once may panic for ever, and a call
    that panics may have handed over blocks of its rows: 92682 values in one buffer
    of a column with nulls, in blocks of one value. *)
Theorem C104_refuted :
  ~ (forall bufs, Forall (fun o => o = Ret (Ok tt)) (snd (fix_anyway collect Debug 8 (pe_new 12 false, []) (map FEncode bufs))) ->
       exists calls buf, In (Ret (Ok tt)) (map snd (filter (fun x => match fst x with FEncode _ => true | FFlush => false end)
         (combine (calls ++ [FEncode buf]) (snd (fix_anyway collect Debug 8 (fst (fix_anyway collect Debug 8 (pe_new 12 false, []) (map FEncode bufs))) (calls ++ [FEncode buf])))))))
  /\ ~ (forall p buf rows, pb_holds buf true rows ->
       match snd (fix_step collect p 8 (pe_new 8 true, []) (FEncode buf)) with
       | Panic _ => snd (fst (fix_step collect p 8 (pe_new 8 true, []) (FEncode buf))) = [] | _ => True end).
Proof.
  split.
  - intros H. destruct (H [fixed_buf false [Some 1%N]; fixed_buf false [Some 2%N]]) as (calls & buf & I).
    { vm_compute. repeat constructor. }
    change (fst (fix_anyway collect Debug 8 (pe_new 12 false, []) (map FEncode [fixed_buf false [Some 1%N]; fixed_buf false [Some 2%N]]))) with full_up in I.
    destruct C104_stuck_example as [M _]. destruct full_up as [e s]. cbn [fst] in M.
    destruct (C104_stuck_partial _ collect 8 e s (calls ++ [FEncode buf]) M) as (_ & F & _). clear - F I.
    set (outs := snd (fix_anyway collect Debug 8 (e, s) (calls ++ [FEncode buf]))) in *. clearbody outs. generalize dependent (calls ++ [FEncode buf]). clear. intros calls I F.
    induction F as [|c o calls outs P F IH]; cbn [combine filter map fst snd] in I; [destruct I|].
    destruct c as [b|]; cbn [map snd] in I; [|exact (IH I)]. destruct I as [I|I]; [congruence|exact (IH I)].
  - intros H. destruct (fill_one true (repeat (Some 7%N) (N.to_nat 92682 * 1)) (or_introl eq_refl)) as (buf & _ & HH). specialize (H Release buf _ HH).
    destruct (late_panic Release buf _ (N.to_nat 92682) HH) as (e & x & l & E).
    + rewrite repeat_length. lia.
    + lia.
    + apply (proj1 (cut_repeat (T := N) 7%N 1 ltac:(lia) (N.to_nat 92682))).
    + exact many_blocks.
    + rewrite E in H. discriminate H.
Qed.
Print Assumptions C104_refuted.
