(** The fixed-width encoder: what [encode] and [flush] do, for every sink. *)
From Verif Require Import Base BaseProofs Spec SpecRows Varint VarintProofs Buffers Observe BitmapProofs BuffersProofs
  Rle Sink PrimEnc ReadBlock RowsProofs BlockProofs.
Open Scope nat_scope.

Section Windows.
Context {T : Type}.
Lemma windows_fuel f cap : 0 < cap -> forall g (rows : list (option T)),
  num_vals rows < f -> num_vals rows < g -> windows f cap rows = windows g cap rows.
Proof.
  intros Hc. induction f as [|f IH]; intros [|g] rows Hf Hg; try lia. cbn [windows].
  destruct (Nat.leb_spec cap (num_vals rows)); [|reflexivity]. f_equal. apply IH; rewrite num_drop; lia.
Qed.

Lemma leftover_fuel f cap : 0 < cap -> forall g (rows : list (option T)),
  num_vals rows < f -> num_vals rows < g -> leftover f cap rows = leftover g cap rows.
Proof.
  intros Hc. induction f as [|f IH]; intros [|g] rows Hf Hg; try lia. cbn [leftover].
  destruct (Nat.leb_spec cap (num_vals rows)); [|reflexivity]. apply IH; rewrite num_drop; lia.
Qed.

Lemma cut_step cap (rows : list (option T)) : 0 < cap ->
  cut cap rows = if cap <=? num_vals rows then take_vals cap rows :: cut cap (drop_vals cap rows) else [].
Proof.
  intros Hc. unfold cut at 1. cbn [windows]. destruct (Nat.leb_spec cap (num_vals rows)) as [L|L]; [|reflexivity].
  f_equal. apply windows_fuel; rewrite ?num_drop; lia.
Qed.

Lemma rest_step cap (rows : list (option T)) : 0 < cap ->
  rest_of cap rows = if cap <=? num_vals rows then rest_of cap (drop_vals cap rows) else trim rows.
Proof.
  intros Hc. unfold rest_of at 1. cbn [leftover]. destruct (Nat.leb_spec cap (num_vals rows)) as [L|L]; [|reflexivity].
  apply leftover_fuel; rewrite ?num_drop; lia.
Qed.

Lemma cut_rest cap (rows : list (option T)) : 0 < cap -> concat (cut cap rows) ++ rest_of cap rows = trim rows.
Proof. intros H. apply windows_leftover; lia. Qed.
End Windows.

(** [cap] values of [sz] bytes are the fewest with [B] bytes. *)
Definition fits (sz : nat) (B : N) (cap : nat) : Prop :=
  (B <= N.of_nat (cap * sz) < B + N.of_nat sz)%N.

Lemma chunk_len_ok sz B cap : 0 < sz -> fits sz B cap ->
  (B / N.of_nat sz + (if B mod N.of_nat sz =? 0 then 0 else 1))%N = N.of_nat cap.
Proof.
  intros Hs [H1 H2]. pose proof (N.div_mod B (N.of_nat sz) ltac:(lia)) as D.
  pose proof (N.mod_lt B (N.of_nat sz) ltac:(lia)) as M.
  rewrite Nat2N.inj_mul in *. set (q := (B / N.of_nat sz)%N) in *. set (r := (B mod N.of_nat sz)%N) in *.
  set (s := N.of_nat sz) in *. set (c := N.of_nat cap) in *.
  destruct (N.eqb_spec r 0) as [E|E].
  - assert (c * s = q * s + 0 \/ c * s <> q * s)%N by lia.
    assert (c < q + 1)%N by (apply (N.mul_lt_mono_pos_r s); nia).
    assert (q < c + 1)%N by (apply (N.mul_lt_mono_pos_r s); nia). lia.
  - assert (c < q + 2)%N by (apply (N.mul_lt_mono_pos_r s); nia).
    assert (q < c)%N by (apply (N.mul_lt_mono_pos_r s); nia). lia.
Qed.

Lemma pe_chunk_ok p sz len start B cap : 0 < sz -> fits sz B cap -> (N.of_nat (start + cap) < u64_lim)%N ->
  pe_chunk p sz len start B = Ret (min len (start + cap)).
Proof.
  intros Hs HF HL. unfold pe_chunk. cbn zeta. rewrite (chunk_len_ok sz B cap Hs HF).
  rewrite add64_ok by lia. rewrite bind_ret. f_equal. destruct (N.ltb_spec (N.of_nat len) (N.of_nat start + N.of_nat cap)); lia.
Qed.

Section Enc.
Context {S : Type} (wr : sink_fn S) (p : profile) (sz : nat).

(** Writing blocks with the given rows, each with the number of rows it counts
    for, until the sink fails. *)
Fixpoint emits (nl : bool) (rows : N) (items : list (nat * list (option N))) (s : S)
  : outcome (N * S * result unit) :=
  match items with
  | [] => Ret (rows, s, Ok tt)
  | (n, w) :: rest =>
      let* rows := pe_add_rows rows n in
      match wr s (rows - 1)%N (prim_block sz nl w) with
      | (s', Ok _) => emits nl rows rest s'
      | (s', Err) => Ret (rows, s', Err)
      end
  end.

(** The encoder holds back the rows [R] and counted [rows] rows. *)
Definition pe_inv (B : N) (nl : bool) (e : prim_enc) (R : list (option N)) (rows : N) : Prop :=
  pb_append_rows (pb_new nl) R = Ret (pe_remaining e) /\ rows_allowed nl R /\ ends_some R
  /\ pe_min e = B /\ pe_rows e = rows.

Lemma pe_inv_new B nl : pe_inv B nl (pe_new B nl) [] 0.
Proof. repeat split; try reflexivity; [right; constructor|left; reflexivity]. Qed.

Lemma pe_inv_holds B nl e R rows : pe_inv B nl e R rows -> pb_holds (pe_remaining e) nl R.
Proof.
  intros (HB & HA & _). destruct (pb_new_rows nl R HA) as (b & E & V & VR).
  rewrite HB in E. injection E as ->. split; [exact V|]. eapply val_rep_shows; eauto.
Qed.

Lemma pe_inv_len B nl e R rows : pe_inv B nl e R rows ->
  pb_len (pe_remaining e) = num_vals R /\ pb_is_nullable (pe_remaining e) = nl.
Proof. intros H. apply pe_inv_holds in H. apply pb_holds_counts in H. tauto. Qed.

Lemma pe_inv_extend B nl e R rows more : pe_inv B nl e R rows -> rows_allowed nl more ->
  ends_some more -> exists b, pb_append_rows (pe_remaining e) more = Ret b
    /\ pe_inv B nl (pe_set_remaining e b) (R ++ more) rows.
Proof.
  intros (HB & HA & HE & HM & HR) HA2 HE2.
  assert (HA3 : rows_allowed nl (R ++ more)) by (apply allowed_app; auto).
  destruct (pb_new_rows nl (R ++ more) HA3) as (b & E & _ & _).
  pose proof E as E2. rewrite pb_rows_app, HB, bind_ret in E2. exists b. split; [exact E2|].
  repeat split; auto. cbn. destruct more; [rewrite app_nil_r; exact HE|]. apply ends_app; [exact HE2|discriminate].
Qed.

Lemma bit_pos_irrelevant buf start end_ a b rle rows : pb_holds buf false rows ->
  encode_primitive_buffer sz buf start end_ a rle = encode_primitive_buffer sz buf start end_ b rle.
Proof.
  intros [_ H]. unfold encode_primitive_buffer. destruct (pb_validity buf); cbn in H; [destruct H; discriminate|reflexivity].
Qed.

Lemma validity_pos_irrelevant dst buf start end_ a b (rows : list (option N)) : pb_holds buf false rows ->
  pb_is_nullable dst = false ->
  pb_append_from dst buf start end_ a = pb_append_from dst buf start end_ b.
Proof.
  intros [_ H] HD. unfold pb_append_from. destruct (pb_validity buf); cbn in H; [destruct H; discriminate|].
  unfold pb_is_nullable in HD. destruct (pb_validity dst); [discriminate|reflexivity].
Qed.

Lemma add_rows_pos rows n rows' : pe_add_rows rows n = Ret rows' -> rows' = (rows + N.of_nat n)%N /\ (rows' <= u32_max)%N.
Proof.
  unfold pe_add_rows. destruct (N.leb_spec (N.of_nat n) u32_max); [|discriminate].
  destruct (N.leb_spec (rows + N.of_nat n) u32_max); [|discriminate]. intros [= <-]. split; [reflexivity|assumption].
Qed.

Lemma pe_write_ok B nl e R rows buf before w after vp s : 0 < sz ->
  pe_inv B nl e R rows -> pb_holds buf nl (before ++ w ++ after) ->
  ends_some w -> w <> [] -> (N.of_nat (length w) <= 2 ^ 32)%N -> (N.of_nat (sz * num_vals w) < u64_lim)%N ->
  (nl = true -> vp = length before) ->
  match emits nl rows [(if nl then length before + length w else length w, w)] s with
  | Ret (rows', s', res) => exists e',
      pe_write wr p sz e buf (num_vals before) (num_vals before + num_vals w) vp s
      = Ret (e', s', match res with Ok _ => Ok (if nl then length before + length w else 0) | Err => Err end)
      /\ pe_inv B nl e' R rows' /\ pe_remaining e' = pe_remaining e
  | Panic k => pe_write wr p sz e buf (num_vals before) (num_vals before + num_vals w) vp s = Panic k
  | NoFuel => False
  end.
Proof.
  intros Hs HI HH HE HN HL HZ HV. unfold pe_write.
  assert (EB : exists rle', encode_primitive_buffer sz buf (num_vals before) (num_vals before + num_vals w) vp (pe_bitmap e)
    = Ret (prim_block sz nl w, rle', if nl then (length before + length w, length before + length w) else (length w, 0))).
  { destruct (encode_primitive_ok sz buf nl before w after (pe_bitmap e) HH HE HL HZ) as (rle' & E).
    exists rle'. destruct nl; [rewrite (HV eq_refl); exact E|].
    rewrite (bit_pos_irrelevant _ _ _ vp (length before) _ _ HH), E.
    apply holds_allowed in HH. apply allowed_app in HH. destruct HH as [_ HH]. apply allowed_app in HH.
    rewrite allowed_false_num by tauto. reflexivity. }
  destruct EB as (rle' & ->). rewrite bind_ret.
  set (cnt := if nl then length before + length w else length w).
  assert (Hcnt : 0 < cnt) by (destruct w; [congruence|]; unfold cnt; destruct nl; cbn [length]; lia).
  replace (if nl then (length before + length w, length before + length w) else (length w, 0))
    with (cnt, if nl then length before + length w else 0) by (unfold cnt; destruct nl; reflexivity).
  destruct HI as (I1 & I2 & I3 & I4 & I5). cbn beta iota zeta. rewrite I5. cbn [emits].
  destruct (pe_add_rows rows cnt) as [rows'| |] eqn:EA; cbn [bind].
  - apply add_rows_pos in EA. destruct EA as [EA _].
    rewrite sub32_ok by lia. rewrite bind_ret.
    destruct (wr s (rows' - 1)%N (prim_block sz nl w)) as [s' [[]|]]; cbn [fst snd];
      (eexists; split; [reflexivity|]); repeat split; auto.
  - reflexivity.
  - unfold pe_add_rows in EA. destruct (N.of_nat cnt <=? u32_max)%N; [|discriminate]. destruct (_ <=? _)%N in EA; discriminate.
Qed.

Lemma emits_nofuel nl items : forall rows s, emits nl rows items s <> NoFuel.
Proof.
  induction items as [|[n w] items IH]; intros rows s; cbn [emits]; [discriminate|].
  unfold pe_add_rows. destruct (N.of_nat n <=? u32_max)%N; cbn [bind]; [|discriminate].
  destruct (_ <=? _)%N; cbn [bind]; [|discriminate]. destruct (wr _ _ _) as [s' [[]|]]; [apply IH|discriminate].
Qed.

Lemma emits_app nl a : forall rows b s,
  emits nl rows (a ++ b) s = let* r := emits nl rows a s in
    let '(rows, s, res) := r in match res with Ok _ => emits nl rows b s | Err => Ret (rows, s, Err) end.
Proof.
  induction a as [|[n w] a IH]; intros rows b s; cbn [app emits]; [reflexivity|].
  rewrite bind_assoc. apply bind_ext. intros r'. destruct (wr _ _ _) as [s' [[]|]]; [apply IH|reflexivity].
Qed.

(** The loop over a buffer, with nothing held back. *)
Lemma pe_loop_ok B cap nl : 0 < sz -> fits sz B cap -> 0 < cap -> (N.of_nat cap < 2 ^ 32)%N -> (N.of_nat sz < 2 ^ 31)%N ->
  forall fuel rest before e rows buf vp s,
  pe_inv B nl e [] rows -> pb_holds buf nl (before ++ rest) ->
  (N.of_nat (length before + length rest) <= 2 ^ 32 - 2)%N ->
  (nl = true -> vp = length before) -> num_vals rest < fuel ->
  match emits nl rows (counted nl (length before) (cut cap rest)) s with
  | Ret (rows', s', res) => exists e', pe_loop wr p sz fuel e buf (num_vals before) vp s = Ret (e', s', res)
      /\ pe_inv B nl e' (match res with Ok _ => rest_of cap rest | Err => [] end) rows'
  | Panic k => pe_loop wr p sz fuel e buf (num_vals before) vp s = Panic k
  | NoFuel => False
  end.
Proof.
  intros Hs HF Hc Hc32 Hz. change (2 ^ 32)%N with 4294967296%N in *. change (2 ^ 31)%N with 2147483648%N in *.
  change (4294967296 - 2)%N with 4294967294%N.
  induction fuel as [|fuel IH]; intros rest before e rows buf vp s HI HH HL HV Hf; [lia|].
  rewrite cut_step, rest_step by exact Hc. cbn [pe_loop].
  assert (LB : pb_len buf = num_vals before + num_vals rest).
  { apply pb_holds_counts in HH. rewrite <- num_vals_app. tauto. }
  rewrite LB. pose proof (somes_length_le rest) as SL. pose proof (somes_length_le before) as SLb. fold (num_vals rest) in SL.
  fold (num_vals before) in SLb.
  assert (HM : pe_min e = B) by apply HI.
  destruct (Nat.ltb_spec (num_vals before) (num_vals before + num_vals rest)) as [Hlt|Hlt].
  2:{ destruct (Nat.leb_spec cap (num_vals rest)); [lia|]. cbn [counted emits]. eexists; split; [reflexivity|].
      rewrite trim_none_only by lia. exact HI. }
  rewrite HM, (pe_chunk_ok p sz _ _ B cap Hs HF) by (unfold u64_lim; lia). rewrite bind_ret.
  destruct (Nat.leb_spec cap (num_vals rest)) as [Hf2|Hf2].
  - (* a whole block *)
    replace (min (num_vals before + num_vals rest) (num_vals before + cap)) with (num_vals before + cap) by lia.
    replace (num_vals before + cap - num_vals before) with cap by lia.
    destruct (N.ltb_spec (N.of_nat (cap * sz)) B) as [X|_]; [destruct HF; lia|].
    set (w := take_vals cap rest). set (rest' := drop_vals cap rest).
    assert (HW : num_vals w = cap) by (unfold w; rewrite num_take; lia).
    assert (HWE : ends_some w) by (apply take_ends; exact Hf2).
    assert (HWN : w <> []) by (intros E; rewrite E in HW; unfold num_vals in HW; cbn in HW; lia).
    assert (ER : rest = w ++ rest') by (symmetry; apply take_drop).
    assert (ELen : length rest = length w + length rest') by (rewrite ER, app_length; reflexivity).
    cbn [counted].
    pose proof (pe_write_ok B nl e [] rows buf before w rest' vp s Hs HI) as PW.
    rewrite <- ER in PW. rewrite HW in PW.
    specialize (PW HH HWE HWN). change (2 ^ 32)%N with 4294967296%N in PW.
    specialize (PW ltac:(lia) ltac:(unfold u64_lim; nia) HV).
    change ((?x, w) :: ?l) with ([(x, w)] ++ l). rewrite emits_app.
    destruct (emits nl rows [_] s) as [[[rows1 s1] res1]| |]; cbn [bind] in *; [| |contradiction].
    + destruct PW as (e1 & -> & I1 & R1). rewrite bind_ret. destruct res1 as [[]|].
      * specialize (IH rest' (before ++ w) e1 rows1 buf (if nl then length before + length w else 0) s1 I1).
        rewrite <- app_assoc, <- ER in IH. specialize (IH HH).
        rewrite app_length, num_vals_app, HW in IH.
        specialize (IH ltac:(lia)).
        assert (HV' : nl = true -> (if nl then length before + length w else 0) = length before + length w) by (intros ->; reflexivity).
        specialize (IH HV'). apply IH. unfold rest'. rewrite num_drop. lia.
      * eexists; split; [reflexivity|exact I1].
    + rewrite PW. reflexivity.
  - (* the rest is held back *)
    replace (min (num_vals before + num_vals rest) (num_vals before + cap)) with (num_vals before + num_vals rest) by lia.
    replace (num_vals before + num_vals rest - num_vals before) with (num_vals rest) by lia.
    destruct (N.ltb_spec (N.of_nat (num_vals rest * sz)) B) as [_|X]; [|destruct HF; nia].
    cbn [counted emits].
    pose proof (pe_inv_len _ _ _ _ _ HI) as [HL0 HN0].
    assert (ER : rest = trim rest ++ drop_vals (num_vals rest) rest) by (symmetry; apply take_drop).
    assert (HA : rows_allowed nl (trim rest)).
    { apply holds_allowed in HH. apply allowed_app in HH. apply allowed_take. tauto. }
    pose proof (pb_append_from_eq (pe_remaining e) buf nl before (trim rest) (drop_vals (num_vals rest) rest)) as PA.
    rewrite <- ER in PA. specialize (PA HH HN0 (trim_ends rest)).
    fold (num_vals (trim rest)) (num_vals before) in PA. rewrite num_trim, HL0 in PA.
    unfold num_vals at 1 in PA. cbn [somes length] in PA.
    assert (EQ : pb_append_from (pe_remaining e) buf (num_vals before) (num_vals before + num_vals rest) vp
               = pb_append_from (pe_remaining e) buf (num_vals before) (num_vals before + num_vals rest) (length before)).
    { destruct nl; [rewrite HV by reflexivity; reflexivity|]. eapply validity_pos_irrelevant; eauto. }
    rewrite EQ, PA by (unfold u32_max; lia).
    destruct (pe_inv_extend B nl e [] rows (trim rest) HI HA (trim_ends rest)) as (b & -> & I'). rewrite !bind_ret. cbn [fst].
    eexists; split; [reflexivity|exact I'].
Qed.

Lemma pe_flush_ok B nl e R rows s : 0 < sz -> (N.of_nat (sz * num_vals R) < u64_lim)%N ->
  pe_inv B nl e R rows -> (N.of_nat (length R) <= 2 ^ 32)%N ->
  match emits nl rows (match R with [] => [] | _ => [(length R, R)] end) s with
  | Ret (rows', s', res) => exists e', pe_flush wr p sz e s = Ret (e', s', res) /\ pe_inv B nl e' R rows'
  | Panic k => pe_flush wr p sz e s = Panic k
  | NoFuel => False
  end.
Proof.
  intros Hs HZ HI HL. unfold pe_flush, pe_write_remaining.
  pose proof (pe_inv_len _ _ _ _ _ HI) as [HL0 HN0]. pose proof (pe_inv_holds _ _ _ _ _ HI) as HH.
  rewrite HL0. destruct R as [|x R0].
  - cbn [num_vals somes length Nat.ltb Nat.leb emits]. eexists; split; [reflexivity|exact HI].
  - assert (HE : ends_some (x :: R0)) by apply HI. set (R := x :: R0) in *. assert (HN : R <> []) by discriminate.
    pose proof (nonempty_num R HE HN) as HP. destruct (Nat.ltb_spec 0 (num_vals R)); [|lia].
    pose proof (pe_write_ok B nl e R rows (pe_remaining e) [] R [] 0 s Hs HI) as PW.
    cbn [app] in PW. rewrite app_nil_r in PW. specialize (PW HH HE HN HL HZ (fun _ => eq_refl)).
    cbn [length] in PW. change (num_vals (@nil (option N))) with 0 in PW. cbn [Nat.add] in PW.
    replace (if nl then length R else length R) with (length R) in PW by (destruct nl; reflexivity).
    change (match R with [] => [] | _ => [(length R, R)] end) with [(length R, R)].
    clearbody R.
    destruct (emits nl rows [(length R, R)] s) as [[[rows1 s1] res1]| |]; [| |contradiction].
    + destruct PW as (e1 & E & I1 & R1). rewrite E, bind_ret. eexists; split; [|exact I1]. destruct res1 as [[]|]; reflexivity.
    + rewrite PW. reflexivity.
Qed.

(** A later buffer while rows are held back: it only fills up the block, the
    rest of the buffer is lost. *)
Lemma pe_encode_pending B cap nl fuel e R rows buf b s : 2 <= sz -> fits sz B cap -> (B < 2 ^ 32)%N -> 2 <= cap ->
  pe_inv B nl e R rows -> R <> [] -> num_vals R <= cap -> (N.of_nat (num_vals R * sz) <= B)%N ->
  pb_holds buf nl b ->
  exists e', pe_encode wr p sz fuel e buf s = Ret (e', s, Ok tt)
    /\ pe_inv B nl e' (R ++ take_vals (min (cap - num_vals R) (num_vals b)) b) rows.
Proof.
  intros Hs HF HB Hc HI HN HR HR2 HH. change (2 ^ 32)%N with 4294967296%N in *. unfold pe_encode.
  pose proof (pe_inv_len _ _ _ _ _ HI) as [HL0 HN0].
  assert (HP : 0 < num_vals R) by (apply nonempty_num; [apply HI|exact HN]).
  rewrite HL0. destruct (Nat.ltb_spec 0 (num_vals R)); [|lia]. cbn zeta.
  assert (HM : pe_min e = B) by apply HI. rewrite HM, sub64_ok by exact HR2. rewrite bind_ret.
  assert (LB : pb_len buf = num_vals b) by (apply pb_holds_counts in HH; tauto).
  assert (HF2 : fits sz (B - N.of_nat (num_vals R * sz)) (cap - num_vals R)).
  { destruct HF as [F1 F2]. split; rewrite Nat.mul_sub_distr_r; nia. }
  assert (Hcap : (N.of_nat cap < 4294967295)%N) by (destruct HF; nia).
  rewrite (pe_chunk_ok p sz _ 0 _ _ ltac:(lia) HF2) by (unfold u64_lim; lia). rewrite bind_ret, LB. cbn [Nat.add].
  set (k := min (cap - num_vals R) (num_vals b)). replace (min (num_vals b) (cap - num_vals R)) with k by lia.
  set (w := take_vals k b).
  assert (EB : b = [] ++ w ++ drop_vals k b) by (symmetry; apply take_drop).
  assert (HW : num_vals w = k) by (unfold w; rewrite num_take; lia).
  assert (HWE : ends_some w) by (apply take_ends; lia).
  rewrite EB in HH.
  pose proof (pb_append_from_eq (pe_remaining e) buf nl [] w (drop_vals k b) HH HN0 HWE) as PA.
  fold (num_vals w) in PA. cbn [somes length Nat.add] in PA. rewrite HW, HL0 in PA.
  rewrite PA by (unfold u32_max; lia).
  assert (HA : rows_allowed nl w). { apply holds_allowed in HH. cbn [app] in HH. apply allowed_app in HH. tauto. }
  destruct (pe_inv_extend B nl e R rows w HI HA HWE) as (b' & -> & I'). rewrite !bind_ret. cbn [fst snd].
  pose proof (pe_inv_len _ _ _ _ _ I') as [HL1 _]. rewrite HL1, num_vals_app, HW. cbn [pe_min pe_set_remaining]. rewrite HM.
  destruct (N.ltb_spec (N.of_nat (num_vals R + k)) B) as [_|X].
  - eexists; split; [reflexivity|exact I'].
  - exfalso. destruct HF as [F1 F2]. assert (num_vals R + k <= cap) by lia. nia.
Qed.

(** When the held back rows already exceed the block size, a build with
    overflow checks panics. *)
Lemma pe_encode_overfull B nl fuel e R rows buf s : p = Debug ->
  pe_inv B nl e R rows -> R <> [] -> (B < N.of_nat (num_vals R * sz))%N ->
  pe_encode wr p sz fuel e buf s = Panic POverflow.
Proof.
  intros -> HI HN HR. unfold pe_encode. pose proof (pe_inv_len _ _ _ _ _ HI) as [HL0 HN0].
  assert (HP : 0 < num_vals R) by (apply nonempty_num; [apply HI|exact HN]).
  rewrite HL0. destruct (Nat.ltb_spec 0 (num_vals R)); [|lia]. cbn zeta.
  assert (HM : pe_min e = B) by apply HI. rewrite HM. unfold sub64, usub.
  destruct (N.leb_spec (N.of_nat (num_vals R * sz)) B); [lia|]. reflexivity.
Qed.

(** A buffer when nothing is held back. *)
Lemma pe_encode_empty B cap nl fuel e rows buf b s : 0 < sz -> fits sz B cap -> 0 < cap ->
  (N.of_nat cap < 2 ^ 32)%N -> (N.of_nat sz < 2 ^ 31)%N ->
  pe_inv B nl e [] rows -> pb_holds buf nl b -> (N.of_nat (length b) <= 2 ^ 32 - 2)%N -> num_vals b < fuel ->
  match emits nl rows (counted nl 0 (cut cap b)) s with
  | Ret (rows', s', res) => exists e', pe_encode wr p sz fuel e buf s = Ret (e', s', res)
      /\ pe_inv B nl e' (match res with Ok _ => rest_of cap b | Err => [] end) rows'
  | Panic k => pe_encode wr p sz fuel e buf s = Panic k
  | NoFuel => False
  end.
Proof.
  intros Hs HF Hc H1 H2 HI HH HL Hf. unfold pe_encode.
  pose proof (pe_inv_len _ _ _ _ _ HI) as [HL0 _]. rewrite HL0. change (0 <? num_vals (@nil (option N))) with false. cbn iota.
  apply (pe_loop_ok B cap nl Hs HF Hc H1 H2 fuel b [] e rows buf 0 s HI HH HL (fun _ => eq_refl) Hf).
Qed.
End Enc.
