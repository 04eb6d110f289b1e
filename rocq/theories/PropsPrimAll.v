(** Property C29 without any restriction on nulls, widths, block sizes and
    builds (raw/primitive_enc.rs). *)
From Verif Require Import Base BaseProofs Spec SpecRows SpecBin Varint VarintProofs Buffers Observe BitmapProofs BuffersProofs
  Rle RleTrackProofs PropsRle Sink PrimEnc ReadBlock ObserveEnc RowsProofs BlockProofs PrimEncProofs PrimRunProofs BinEncProofs
  PropsPrim PropsPrimRows PropsPrimIds PropsPrimAny.
Open Scope nat_scope.

(** The blocks that a sequence of buffers produces, each with the number of rows
    it is counted for, and what is held back at the end, with everything held
    back and written before.  [cap] values of [sz] bytes are the least number
    that makes up the block size [B].  A buffer that arrives while rows are held
    back
    - is used up to what is missing for one block, if the held back values are
      not larger than a block;
    - cannot be handled ([None]) if they are and overflows are detected;
    - is used up to its last value if they are and overflows go unnoticed.
    The held back rows then become a block only if the NUMBER of their values
    reaches [B]; in that case the rest of the buffer is used as if it had come
    alone, but counted from its start if nulls are allowed.  Otherwise it is
    dropped.  Held back rows are written as they are [seen]: the validity of rows
    held back earlier shines through (SpecBin.v). *)
Fixpoint col_all {T} (nl checked : bool) (sz : nat) (B : N) (cap : nat) (past : list (list (option T)))
  (held : list (option T)) (bufs : list (list (option T)))
  : list (nat * list (option T)) * option (list (list (option T)) * list (option T)) :=
  match bufs with
  | [] => ([], Some (past, held))
  | b :: rest =>
      match held with
      | [] => let r := col_all nl checked sz B cap past (rest_of cap b) rest in (counted nl 0 (cut cap b) ++ fst r, snd r)
      | _ =>
          let larger := (B <? N.of_nat (num_vals held * sz))%N in
          if larger && checked then ([], None)
          else
            let k := if larger then num_vals b else min (cap - num_vals held) (num_vals b) in
            let held' := held ++ take_vals k b in
            if (N.of_nat (num_vals held') <? B)%N then col_all nl checked sz B cap past held' rest
            else
              let more := drop_vals k b in
              let w := seen nl past held' in
              let r := col_all nl checked sz B cap (held' :: past) (rest_of cap more) rest in
              ((length w, w) :: counted nl (length (take_vals k b)) (cut cap more) ++ fst r, snd r)
      end
  end.

Section All.
Context {S : Type} (wr : sink_fn S) (p : profile) (sz : nat).

(** The encoder holds back the rows [R], wrote and cleared the rows [past]
    before, and counted [rows] rows. *)
Definition pe_has (B : N) (nl : bool) (e : prim_enc) (past : list (list (option N))) (R : list (option N)) (rows : N) : Prop :=
  pb_values (pe_remaining e) = somes R
  /\ val_rep (pb_validity (pe_remaining e)) nl (display past R) (dirty past)
  /\ rows_allowed nl R /\ ends_some R /\ pe_min e = B /\ pe_rows e = rows.

Lemma pe_has_new B nl : pe_has B nl (pe_new B nl) [] [] 0.
Proof.
  split; [reflexivity|]. split.
  - cbn. destruct nl; cbn; [split; [reflexivity|]|reflexivity].
    eapply rep_ext; [|apply rep_new]. intros i. unfold dirty, no_stale. cbn. rewrite andb_false_r. reflexivity.
  - split; [right; constructor|]. split; [left; reflexivity|]. split; reflexivity.
Qed.

Lemma pe_has_len B nl e past R rows : pe_has B nl e past R rows ->
  pb_len (pe_remaining e) = num_vals R /\ pb_is_nullable (pe_remaining e) = nl.
Proof.
  intros (HV & HB & _). split; [unfold pb_len; rewrite HV; reflexivity|].
  unfold pb_is_nullable. destruct (pb_validity (pe_remaining e)); cbn in HB; [symmetry; tauto|auto].
Qed.

Lemma pe_has_extend B nl e past R rows more : pe_has B nl e past R rows -> rows_allowed nl more -> ends_some more ->
  exists b, pb_append_rows (pe_remaining e) more = Ret b /\ pe_has B nl (pe_set_remaining e b) past (R ++ more) rows.
Proof.
  intros (HV & HB & HA & HE & HM & HR) HA2 HE2.
  destruct (pb_rows_rep (pe_remaining e) nl _ _ more HB HA2) as (b & E & V & W). exists b. split; [exact E|].
  unfold pe_has. cbn [pe_set_remaining pe_remaining pe_min pe_rows].
  split; [rewrite V, HV, somes_app; reflexivity|].
  split. { unfold display in W |- *. rewrite stale_or_length in W. unfold validity_of. rewrite map_app, stale_or_app. exact W. }
  split; [apply allowed_app; auto|]. split; [|auto].
  destruct more; [rewrite app_nil_r; exact HE|]. apply ends_app; [exact HE2|discriminate].
Qed.

Lemma pe_has_clear B nl e past R rows : pe_has B nl e past R rows ->
  pe_has B nl (pe_set_remaining e (pb_clear (pe_remaining e))) (R :: past) [] rows.
Proof.
  intros (HV & HB & HA & HE & HM & HR). unfold pe_has. cbn [pe_set_remaining pe_remaining pe_min pe_rows pb_clear pb_values pb_validity].
  split; [reflexivity|].
  split. { destruct (pb_validity (pe_remaining e)) as [bm|]; cbn [option_map val_rep] in *; [|exact HB].
           destruct HB as [-> HB]. split; [reflexivity|]. cbn. eapply rep_ext; [|apply clear_rep; exact HB].
           intros i. apply dirty_cons. }
  split; [right; constructor|]. split; [left; reflexivity|]. auto.
Qed.

(** One block, once its bytes are known. *)
Lemma pe_write_bytes B nl e past R rows buf start end_ vp s w cnt lvp : pe_has B nl e past R rows -> 0 < cnt ->
  (exists rle', encode_primitive_buffer sz buf start end_ vp (pe_bitmap e) = Ret (prim_block sz nl w, rle', (cnt, lvp))) ->
  match emits wr sz nl rows [(cnt, w)] s with
  | Ret (rows', s', res) => exists e',
      pe_write wr p sz e buf start end_ vp s = Ret (e', s', match res with Ok _ => Ok lvp | Err => Err end)
      /\ pe_has B nl e' past R rows' /\ pe_remaining e' = pe_remaining e
  | Panic k => pe_write wr p sz e buf start end_ vp s = Panic k
  | NoFuel => False
  end.
Proof.
  intros (I1 & I2 & I3 & I4 & I5 & I6) Hcnt (rle' & E). unfold pe_write. rewrite E, bind_ret. rewrite I6. cbn [emits].
  destruct (pe_add_rows rows cnt) as [rows'| |] eqn:EA; cbn [bind].
  - apply add_rows_pos in EA. destruct EA as [EA _].
    rewrite sub32_ok by lia. rewrite bind_ret.
    destruct (wr s (rows' - 1)%N (prim_block sz nl w)) as [s' [[]|]]; cbn [fst snd];
      (eexists; split; [reflexivity|]); repeat split; auto.
  - reflexivity.
  - unfold pe_add_rows in EA. destruct (N.of_nat cnt <=? u32_max)%N; [|discriminate]. destruct (_ <=? _)%N in EA; discriminate.
Qed.

(** A window of a buffer. *)
Lemma pe_write_window B nl e past R rows buf before w after vp s :
  pe_has B nl e past R rows -> pb_holds buf nl (before ++ w ++ after) ->
  ends_some w -> w <> [] -> (N.of_nat (length w) <= 2 ^ 32)%N -> (N.of_nat (sz * num_vals w) < u64_lim)%N ->
  (nl = true -> vp = length before) ->
  match emits wr sz nl rows [(if nl then length before + length w else length w, w)] s with
  | Ret (rows', s', res) => exists e',
      pe_write wr p sz e buf (num_vals before) (num_vals before + num_vals w) vp s
      = Ret (e', s', match res with Ok _ => Ok (if nl then length before + length w else 0) | Err => Err end)
      /\ pe_has B nl e' past R rows' /\ pe_remaining e' = pe_remaining e
  | Panic k => pe_write wr p sz e buf (num_vals before) (num_vals before + num_vals w) vp s = Panic k
  | NoFuel => False
  end.
Proof.
  intros HI HH HE HN HL HZ HV. apply pe_write_bytes; [exact HI|destruct w; [congruence|]; destruct nl; cbn [length]; lia|].
  destruct (encode_primitive_ok sz buf nl before w after (pe_bitmap e) HH HE HL HZ) as (rle' & E).
  exists rle'. destruct nl; [rewrite (HV eq_refl); exact E|].
  rewrite (bit_pos_irrelevant sz _ _ _ vp (length before) _ _ HH), E.
  apply holds_allowed in HH. apply allowed_app in HH. destruct HH as [_ HH]. apply allowed_app in HH.
  rewrite allowed_false_num by tauto. reflexivity.
Qed.

(** The held back rows. *)
Lemma pe_write_held B nl e past R rows s : 0 < sz ->
  pe_has B nl e past R rows -> R <> [] -> (N.of_nat (length R) <= 2 ^ 32)%N -> (N.of_nat (sz * num_vals R) < u64_lim)%N ->
  let w := seen nl past R in
  match emits wr sz nl rows [(length w, w)] s with
  | Ret (rows', s', res) => exists e' v,
      pe_write_remaining wr p sz e s = Ret (e', s', match res with Ok _ => Ok v | Err => Err end)
      /\ pe_has B nl e' past R rows' /\ pe_remaining e' = pe_remaining e
  | Panic k => pe_write_remaining wr p sz e s = Panic k
  | NoFuel => False
  end.
Proof.
  intros Hs HI HN HL HZ w. pose proof HI as (HV & HB & HA & HE & HM & HR).
  destruct (seen_spec nl past R HE) as (S1 & S2 & S3 & S4). fold w in S1, S2, S3, S4.
  pose proof (nonempty_num R HE HN) as HP. pose proof (pe_has_len _ _ _ _ _ _ HI) as [HL0 _].
  assert (NW : num_vals w = num_vals R) by (unfold num_vals; rewrite S1; reflexivity).
  assert (HW : w <> []) by (intros E; rewrite E in NW; unfold num_vals at 1 in NW; cbn in NW; lia).
  assert (LW : 0 < length w) by (destruct w; [congruence|cbn; lia]).
  pose proof (pe_write_bytes B nl e past R rows (pe_remaining e) 0 (num_vals R) 0 s w (length w) (if nl then length w else 0) HI LW) as PW.
  unfold pe_write_remaining. rewrite HL0.
  assert (EB : exists rle', encode_primitive_buffer sz (pe_remaining e) 0 (num_vals R) 0 (pe_bitmap e)
    = Ret (prim_block sz nl w, rle', (length w, if nl then length w else 0))).
  { unfold encode_primitive_buffer, prim_block. rewrite Nat.sub_0_r, NW, S1.
    rewrite put_varint_ok by exact HZ. rewrite bind_ret. cbn [app].
    rewrite HV, slice_ok by (unfold num_vals; lia). rewrite bind_ret, Nat.sub_0_r. cbn [skipn].
    replace (firstn (num_vals R) (somes R)) with (somes R) by (unfold num_vals; rewrite firstn_all; reflexivity).
    destruct (pb_validity (pe_remaining e)) as [bm|]; cbn [val_rep] in HB.
    - destruct HB as [-> HB].
      rewrite (put_from_puts _ _ _ _ _ _ (rep_reads _ _ _ HB) (seen_window past R HE)). fold w.
      pose proof (C18_rle_clear (pe_bitmap e) (validity_of w)) as HC. unfold rle_encode at 1 in HC.
      change (2 ^ 32)%N with 4294967296%N in *.
      rewrite validity_bytes_ok in HC by (rewrite validity_length; change (2 ^ 32)%N with 4294967296%N; lia).
      destruct (rle_puts (rle_clear (pe_bitmap e)) (validity_of w)) as [e1| |] eqn:E1; cbn [bind] in HC |- *; try discriminate.
      cbn [fst snd]. destruct (rle_flush e1) as [e2| |]; cbn [bind] in HC |- *; try discriminate.
      injection HC as <-. exists e2. rewrite validity_length, app_assoc. reflexivity.
    - subst nl. exists (pe_bitmap e). rewrite app_nil_r. do 3 f_equal. unfold w, seen. rewrite allowed_false_num by exact HA. reflexivity. }
  specialize (PW EB). destruct (emits wr sz nl rows [(length w, w)] s) as [[[rows' s'] res]|k|]; auto.
  destruct PW as (e' & E & I & Rm). exists e', (if nl then length w else 0). auto.
Qed.

(** The loop over the rest of a buffer, with nothing held back. *)
Lemma pe_loop_all B cap nl past : 0 < sz -> fits sz B cap -> 0 < cap -> (N.of_nat cap < 2 ^ 32)%N -> (N.of_nat sz < 2 ^ 31)%N ->
  forall fuel rest before e rows buf vp s,
  pe_has B nl e past [] rows -> pb_holds buf nl (before ++ rest) ->
  (N.of_nat (length before + length rest) <= 2 ^ 32 - 2)%N ->
  (nl = true -> vp = length before) -> num_vals rest < fuel ->
  match emits wr sz nl rows (counted nl (length before) (cut cap rest)) s with
  | Ret (rows', s', res) => exists e', pe_loop wr p sz fuel e buf (num_vals before) vp s = Ret (e', s', res)
      /\ pe_has B nl e' past (match res with Ok _ => rest_of cap rest | Err => [] end) rows'
  | Panic k => pe_loop wr p sz fuel e buf (num_vals before) vp s = Panic k
  | NoFuel => False
  end.
Proof.
  intros Hs HF Hc Hc32 Hz. change (2 ^ 32)%N with 4294967296%N in *. change (2 ^ 31)%N with 2147483648%N in *.
  change (4294967296 - 2)%N with 4294967294%N.
  induction fuel as [|fuel IH]; intros rest before e rows buf vp s HI HH HL HV Hf; [lia|].
  rewrite cut_step, rest_step by exact Hc. cbn [pe_loop].
  assert (LB : pb_len buf = num_vals before + num_vals rest).
  { apply pb_holds_counts in HH. rewrite <- num_vals_app. tauto. }
  rewrite LB. pose proof (somes_length_le rest) as SL. pose proof (somes_length_le before) as SLb. fold (num_vals rest) in SL.
  fold (num_vals before) in SLb.
  assert (HM : pe_min e = B) by apply HI.
  destruct (Nat.ltb_spec (num_vals before) (num_vals before + num_vals rest)) as [Hlt|Hlt].
  2:{ destruct (Nat.leb_spec cap (num_vals rest)); [lia|]. cbn [counted emits]. eexists; split; [reflexivity|].
      rewrite trim_none_only by lia. exact HI. }
  rewrite HM, (pe_chunk_ok p sz _ _ B cap Hs HF) by (unfold u64_lim; lia). rewrite bind_ret.
  destruct (Nat.leb_spec cap (num_vals rest)) as [Hf2|Hf2].
  - (* a whole block *)
    replace (min (num_vals before + num_vals rest) (num_vals before + cap)) with (num_vals before + cap) by lia.
    replace (num_vals before + cap - num_vals before) with cap by lia.
    destruct (N.ltb_spec (N.of_nat (cap * sz)) B) as [X|_]; [destruct HF; lia|].
    set (w := take_vals cap rest). set (rest' := drop_vals cap rest).
    assert (HW : num_vals w = cap) by (unfold w; rewrite num_take; lia).
    assert (HWE : ends_some w) by (apply take_ends; exact Hf2).
    assert (HWN : w <> []) by (intros E; rewrite E in HW; unfold num_vals in HW; cbn in HW; lia).
    assert (ER : rest = w ++ rest') by (symmetry; apply take_drop).
    assert (ELen : length rest = length w + length rest') by (rewrite ER, app_length; reflexivity).
    cbn [counted].
    pose proof (pe_write_window B nl e past [] rows buf before w rest' vp s HI) as PW.
    rewrite <- ER in PW. rewrite HW in PW.
    specialize (PW HH HWE HWN). change (2 ^ 32)%N with 4294967296%N in PW.
    specialize (PW ltac:(lia) ltac:(unfold u64_lim; nia) HV).
    change ((?x, w) :: ?l) with ([(x, w)] ++ l). rewrite emits_app.
    destruct (emits wr sz nl rows [_] s) as [[[rows1 s1] res1]| |]; cbn [bind] in *; [| |contradiction].
    + destruct PW as (e1 & -> & I1 & R1). rewrite bind_ret. destruct res1 as [[]|].
      * specialize (IH rest' (before ++ w) e1 rows1 buf (if nl then length before + length w else 0) s1 I1).
        rewrite <- app_assoc, <- ER in IH. specialize (IH HH).
        rewrite app_length, num_vals_app, HW in IH.
        specialize (IH ltac:(lia)).
        assert (HV' : nl = true -> (if nl then length before + length w else 0) = length before + length w) by (intros ->; reflexivity).
        specialize (IH HV'). apply IH. unfold rest'. rewrite num_drop. lia.
      * eexists; split; [reflexivity|exact I1].
    + rewrite PW. reflexivity.
  - (* the rest is held back *)
    replace (min (num_vals before + num_vals rest) (num_vals before + cap)) with (num_vals before + num_vals rest) by lia.
    replace (num_vals before + num_vals rest - num_vals before) with (num_vals rest) by lia.
    destruct (N.ltb_spec (N.of_nat (num_vals rest * sz)) B) as [_|X]; [|destruct HF; nia].
    cbn [counted emits].
    pose proof (pe_has_len _ _ _ _ _ _ HI) as [HL0 HN0].
    assert (ER : rest = trim rest ++ drop_vals (num_vals rest) rest) by (symmetry; apply take_drop).
    assert (HA : rows_allowed nl (trim rest)).
    { apply holds_allowed in HH. apply allowed_app in HH. apply allowed_take. tauto. }
    pose proof (pb_append_from_eq (pe_remaining e) buf nl before (trim rest) (drop_vals (num_vals rest) rest)) as PA.
    rewrite <- ER in PA. specialize (PA HH HN0 (trim_ends rest)).
    fold (num_vals (trim rest)) (num_vals before) in PA. rewrite num_trim, HL0 in PA.
    unfold num_vals at 1 in PA. cbn [somes length] in PA.
    assert (EQ : pb_append_from (pe_remaining e) buf (num_vals before) (num_vals before + num_vals rest) vp
               = pb_append_from (pe_remaining e) buf (num_vals before) (num_vals before + num_vals rest) (length before)).
    { destruct nl; [rewrite HV by reflexivity; reflexivity|]. eapply validity_pos_irrelevant; eauto. }
    rewrite EQ, PA by (unfold u32_max; lia).
    destruct (pe_has_extend B nl e past [] rows (trim rest) HI HA (trim_ends rest)) as (b & -> & I'). rewrite !bind_ret. cbn [fst].
    eexists; split; [reflexivity|exact I'].
Qed.

(** A buffer that arrives while rows are held back, block by block. *)
Lemma pe_encode_held_steps B cap nl e past R rows buf b s : 0 < sz -> fits sz B cap -> (0 < B < 2 ^ 32)%N -> (N.of_nat sz < 2 ^ 31)%N ->
  pe_has B nl e past R rows -> R <> [] -> pb_holds buf nl b ->
  (N.of_nat (length R + length b) <= 2 ^ 32 - 2)%N ->
  let larger := (B <? N.of_nat (num_vals R * sz))%N in
  let k := if larger then num_vals b else min (cap - num_vals R) (num_vals b) in
  let R' := R ++ take_vals k b in
  if larger && checks p then pe_encode wr p sz (Datatypes.S (pb_len buf)) e buf s = Panic POverflow
  else if (N.of_nat (num_vals R') <? B)%N then
    exists e', pe_encode wr p sz (Datatypes.S (pb_len buf)) e buf s = Ret (e', s, Ok tt)
      /\ pe_has B nl e' past R' rows
  else
    let w := seen nl past R' in
    match emits wr sz nl rows [(length w, w)] s with
    | Ret (rows1, s1, Ok _) =>
        match emits wr sz nl rows1 (counted nl (length (take_vals k b)) (cut cap (drop_vals k b))) s1 with
        | Ret (rows', s', res) => exists e', pe_encode wr p sz (Datatypes.S (pb_len buf)) e buf s = Ret (e', s', res)
            /\ pe_has B nl e' (R' :: past) (match res with Ok _ => rest_of cap (drop_vals k b) | Err => [] end) rows'
        | Panic x => pe_encode wr p sz (Datatypes.S (pb_len buf)) e buf s = Panic x
        | NoFuel => False
        end
    | Ret (rows1, s1, Err) => exists e', pe_encode wr p sz (Datatypes.S (pb_len buf)) e buf s = Ret (e', s1, Err)
        /\ pe_has B nl e' past R' rows1
    | Panic x => pe_encode wr p sz (Datatypes.S (pb_len buf)) e buf s = Panic x
    | NoFuel => False
    end.
Proof.
  intros Hs HF HB Hz HI HN HH HL larger k R'.
  change (2 ^ 32)%N with 4294967296%N in *. change (2 ^ 31)%N with 2147483648%N in *.
  change (4294967296 - 2)%N with 4294967294%N in *.
  assert (HA : rows_allowed nl b) by (eapply holds_allowed; eauto).
  pose proof (pe_has_len _ _ _ _ _ _ HI) as [HL0 HN0].
  pose proof (somes_length_le R) as NR. fold (num_vals R) in NR. pose proof (somes_length_le b) as NB. fold (num_vals b) in NB.
  assert (HP : 0 < num_vals R) by (apply nonempty_num; [apply HI|exact HN]).
  assert (LB : pb_len buf = num_vals b) by (apply pb_holds_counts in HH; tauto).
  assert (HM : pe_min e = B) by apply HI.
  assert (Hc : 0 < cap) by (destruct HF; destruct cap; cbn in *; lia).
  assert (Hcap : (N.of_nat cap < 4294967296)%N) by (destruct HF; nia).
  assert (KB : k <= num_vals b) by (unfold k; destruct larger; lia).
  destruct (larger && checks p) eqn:LC.
  { apply andb_true_iff in LC. destruct LC as [L C]. destruct p; [|discriminate C].
    unfold larger in L. apply N.ltb_lt in L. unfold pe_encode. rewrite HL0. destruct (Nat.ltb_spec 0 (num_vals R)); [|lia]. cbn zeta.
    rewrite HM. unfold sub64, usub. destruct (N.leb_spec (N.of_nat (num_vals R * sz)) B); [lia|]. reflexivity. }
  set (w := take_vals k b) in *.
  assert (EB : b = [] ++ w ++ drop_vals k b) by (symmetry; apply take_drop).
  assert (HW : num_vals w = k) by (unfold w; rewrite num_take; lia).
  assert (HWE : ends_some w) by (apply take_ends; lia).
  assert (LW : length w + length (drop_vals k b) = length b) by (unfold w; rewrite <- app_length, take_drop; reflexivity).
  assert (HAW : rows_allowed nl w) by (apply allowed_take; exact HA).
  assert (CH : exists want, sub64 p B (N.of_nat (num_vals R * sz)) = Ret want /\ pe_chunk p sz (num_vals b) 0 want = Ret k).
  { unfold larger in *. destruct (N.ltb_spec B (N.of_nat (num_vals R * sz))) as [L|L].
    - cbn [andb] in LC. unfold k. clear R' k KB w EB HW LW HWE HAW.
      destruct p; [discriminate LC|]. unfold sub64, usub.
      destruct (N.leb_spec (N.of_nat (num_vals R * sz)) B); [lia|]. eexists; split; [reflexivity|].
      assert (BIG : (9223372036854775808 <= B + u64_lim - N.of_nat (num_vals R * sz))%N).
      { assert (N.of_nat (num_vals R * sz) <= 9223372036854775808)%N by (rewrite Nat2N.inj_mul; nia). unfold u64_lim. lia. }
      assert (SML : (B + u64_lim - N.of_nat (num_vals R * sz) < u64_lim)%N) by lia.
      set (want := (B + u64_lim - N.of_nat (num_vals R * sz))%N) in *. clearbody want.
      unfold pe_chunk. cbn zeta.
      assert (Q : (4294967296 <= want / N.of_nat sz)%N).
      { apply N.div_le_lower_bound; [lia|]. nia. }
      assert (Q2 : (want / N.of_nat sz + (if want mod N.of_nat sz =? 0 then 0 else 1) < u64_lim)%N).
      { pose proof (N.div_mod want (N.of_nat sz) ltac:(lia)) as D.
        set (q := (want / N.of_nat sz)%N) in *. set (r := (want mod N.of_nat sz)%N) in *. 
        destruct (N.eqb_spec r 0); nia. }
      rewrite add64_ok by lia. rewrite bind_ret. f_equal.
      set (f := if (want mod N.of_nat sz =? 0)%N then 0%N else 1%N) in *. clearbody f.
      set (q := (want / N.of_nat sz)%N) in *. clearbody q.
      destruct (N.ltb_spec (N.of_nat (num_vals b)) (N.of_nat 0 + (q + f))); lia.
    - rewrite sub64_ok by exact L. eexists; split; [reflexivity|].
      assert (HF2 : fits sz (B - N.of_nat (num_vals R * sz)) (cap - num_vals R)).
      { destruct HF as [F1 F2]. split; rewrite Nat.mul_sub_distr_r; nia. }
      rewrite (pe_chunk_ok p sz _ 0 _ _ Hs HF2) by (unfold u64_lim; lia). unfold k. f_equal. lia. }
  destruct CH as (want & E1 & E2).
  assert (HH2 := HH). rewrite EB in HH2.
  pose proof (pb_append_from_eq (pe_remaining e) buf nl [] w (drop_vals k b) HH2 HN0 HWE) as PA.
  fold (num_vals w) in PA. cbn [somes length Nat.add] in PA. rewrite HW, HL0 in PA.
  specialize (PA ltac:(unfold u32_max; lia)).
  destruct (pe_has_extend B nl e past R rows w HI HAW HWE) as (b' & EA & I'). rewrite EA, bind_ret in PA. fold R' in I'.
  pose proof (pe_has_len _ _ _ _ _ _ I') as [HL1 HN1].
  unfold pe_encode. rewrite HL0. destruct (Nat.ltb_spec 0 (num_vals R)); [|lia]. cbn zeta.
  rewrite HM, E1, bind_ret, LB, E2, bind_ret, PA, bind_ret. cbn [fst snd]. rewrite HL1. cbn [pe_min pe_set_remaining].
  rewrite HM.
  destruct (N.ltb_spec (N.of_nat (num_vals R')) B) as [LT|GE].
  { eexists; split; [reflexivity|exact I']. }
  cbn zeta.
  set (e1 := pe_set_remaining e b') in *.
  assert (HNW : R' <> []) by (unfold R'; destruct R; [congruence|discriminate]).
  assert (LR : length R' <= length R + length b) by (unfold R'; rewrite app_length; lia).
  assert (NR' : num_vals R' <= length R') by apply somes_length_le.
  pose proof (pe_write_held B nl e1 past R' rows s Hs I' HNW) as PW.
  change (2 ^ 32)%N with 4294967296%N in PW.
  specialize (PW ltac:(lia) ltac:(unfold u64_lim; rewrite Nat2N.inj_mul; nia)). cbn zeta in PW.
  destruct (emits wr sz nl rows [(length (seen nl past R'), seen nl past R')] s) as [[[rows1 s1] [[]|]]|x|]; cbn [bind]; [| | |contradiction].
  - destruct PW as (e2 & v & -> & I2 & R2). rewrite bind_ret.
    pose proof (pe_has_clear _ _ _ _ _ _ I2) as I3.
    pose proof (pe_loop_all B cap nl (R' :: past) Hs HF Hc Hcap Hz (Datatypes.S (num_vals b)) (drop_vals k b) w
                  (pe_set_remaining e2 (pb_clear (pe_remaining e2))) rows1 buf (if nl then length w else k) s1 I3) as PL.
    cbn [app] in EB. rewrite <- EB in PL. change (2 ^ 32)%N with 4294967296%N in PL.
    specialize (PL HH ltac:(lia) ltac:(intros ->; reflexivity)).
    assert (NS : num_vals (drop_vals k b) < Datatypes.S (num_vals b)) by (rewrite num_drop; lia).
    specialize (PL NS). rewrite HW in PL.
    destruct (emits wr sz nl rows1 _ s1) as [[[rows2 s2] res]|x|]; [| |contradiction].
    + destruct PL as (e3 & -> & I4). eexists; split; [reflexivity|exact I4].
    + rewrite PL. reflexivity.
  - destruct PW as (e2 & v & -> & I2 & R2). rewrite bind_ret. eexists; split; [reflexivity|exact I2].
  - rewrite PW. reflexivity.
Qed.

(** A buffer that arrives while rows are held back. *)
Lemma pe_encode_held_all B cap nl e past R rows buf b s : 0 < sz -> fits sz B cap -> (0 < B < 2 ^ 32)%N -> (N.of_nat sz < 2 ^ 31)%N ->
  pe_has B nl e past R rows -> R <> [] -> pb_holds buf nl b ->
  (N.of_nat (length R + length b) <= 2 ^ 32 - 2)%N ->
  let larger := (B <? N.of_nat (num_vals R * sz))%N in
  let k := if larger then num_vals b else min (cap - num_vals R) (num_vals b) in
  let R' := R ++ take_vals k b in
  if larger && checks p then pe_encode wr p sz (Datatypes.S (pb_len buf)) e buf s = Panic POverflow
  else if (N.of_nat (num_vals R') <? B)%N then
    exists e', pe_encode wr p sz (Datatypes.S (pb_len buf)) e buf s = Ret (e', s, Ok tt)
      /\ pe_has B nl e' past R' rows
  else
    let w := seen nl past R' in
    match emits wr sz nl rows ((length w, w) :: counted nl (length (take_vals k b)) (cut cap (drop_vals k b))) s with
    | Ret (rows', s', Ok _) => exists e', pe_encode wr p sz (Datatypes.S (pb_len buf)) e buf s = Ret (e', s', Ok tt)
        /\ pe_has B nl e' (R' :: past) (rest_of cap (drop_vals k b)) rows'
    | Ret (rows', s', Err) => exists e', pe_encode wr p sz (Datatypes.S (pb_len buf)) e buf s = Ret (e', s', Err)
    | Panic x => pe_encode wr p sz (Datatypes.S (pb_len buf)) e buf s = Panic x
    | NoFuel => False
    end.
Proof.
  intros Hs HF HB Hz HI HN HH HL larger k R'.
  pose proof (pe_encode_held_steps B cap nl e past R rows buf b s Hs HF HB Hz HI HN HH HL) as PS. cbn zeta in PS. fold larger in PS. fold k in PS. fold R' in PS.
  destruct (larger && checks p); [exact PS|]. destruct (N.of_nat (num_vals R') <? B)%N; [exact PS|].
  cbn zeta. change ((?x, ?y) :: ?l) with ([(x, y)] ++ l). rewrite emits_app.
  destruct (emits wr sz nl rows [_] s) as [[[rows1 s1] [[]|]]|x|]; cbn [bind]; [| |exact PS|exact PS].
  - destruct (emits wr sz nl rows1 _ s1) as [[[rows2 s2] [[]|]]|x|]; [exact PS| |exact PS|exact PS]. destruct PS as (e' & E & _). eauto.
  - destruct PS as (e' & E & _). eauto.
Qed.

Lemma pe_encodes_all B cap nl : 0 < sz -> fits sz B cap -> (0 < B < 2 ^ 32)%N -> (N.of_nat sz < 2 ^ 31)%N ->
  forall bufs rowss e past held rows s,
  Forall2 (fun b r => pb_holds b nl r) bufs rowss ->
  pe_has B nl e past held rows ->
  (N.of_nat (length held + sum_len rowss) <= 2 ^ 32 - 2)%N ->
  let run := col_all nl (checks p) sz B cap past held rowss in
  match emits wr sz nl rows (fst run) s with
  | Ret (rows', s', Ok _) =>
      match snd run with
      | Some (past', held') => exists e', pe_encodes wr p sz e bufs s = Ret (e', s', Ok tt)
          /\ pe_has B nl e' past' held' rows' /\ length held' <= length held + sum_len rowss
      | None => pe_encodes wr p sz e bufs s = Panic POverflow
      end
  | Ret (rows', s', Err) => exists e', pe_encodes wr p sz e bufs s = Ret (e', s', Err)
  | Panic k => pe_encodes wr p sz e bufs s = Panic k
  | NoFuel => False
  end.
Proof.
  intros Hs HF HB Hz. assert (Hc : 0 < cap) by (destruct HF; destruct cap; cbn in *; lia).
  change (2 ^ 32)%N with 4294967296%N in *. change (4294967296 - 2)%N with 4294967294%N.
  assert (Hc32 : (N.of_nat cap < 4294967296)%N) by (destruct HF; nia).
  induction bufs as [|b bufs IH]; intros rowss e past held rows s HH HI HL; inversion HH as [|? r ? rowss' Hb Hbs]; subst; clear HH; cbn [col_all pe_encodes].
  - cbn [fst snd emits]. exists e. split; [reflexivity|]. split; [exact HI|lia].
  - assert (EL : sum_len (r :: rowss') = length r + sum_len rowss') by (unfold sum_len; cbn [concat]; apply app_length).
    rewrite EL in *.
    assert (LB : pb_len b = num_vals r) by (apply pb_holds_counts in Hb; tauto).
    destruct held as [|x held0].
    + cbn [length Nat.add] in *.
      pose proof (pe_loop_all B cap nl past Hs HF Hc Hc32 Hz (Datatypes.S (pb_len b)) r [] e rows b 0 s HI Hb) as PE.
      change (2 ^ 32)%N with 4294967296%N in PE. change (4294967296 - 2)%N with 4294967294%N in PE. cbn [length Nat.add] in PE.
      assert (B1 : (N.of_nat (length r) <= 4294967294)%N) by lia. assert (B2 : num_vals r < Datatypes.S (pb_len b)) by lia.
      specialize (PE B1 (fun _ => eq_refl) B2).
      assert (EE : pe_encode wr p sz (Datatypes.S (pb_len b)) e b s = pe_loop wr p sz (Datatypes.S (pb_len b)) e b (num_vals (@nil (option N))) 0 s).
      { unfold pe_encode. pose proof (pe_has_len _ _ _ _ _ _ HI) as [-> _]. reflexivity. }
      rewrite EE. cbn [fst snd]. rewrite emits_app. unfold sink_fn in *.
      destruct (emits wr sz nl rows (counted nl 0 (cut cap r)) s) as [[[rows1 s1] res1]|k|]; cbn [bind]; [| |contradiction].
      * destruct PE as (e1 & -> & I1). rewrite bind_ret. destruct res1 as [[]|].
        -- pose proof (rest_length cap r Hc) as R3.
           specialize (IH rowss' e1 past (rest_of cap r) rows1 s1 Hbs I1 ltac:(lia)). cbn zeta in IH.
           destruct (emits wr sz nl rows1 _ s1) as [[[rows2 s2] [[]|]]|k|]; auto.
           destruct (snd (col_all _ _ _ _ _ _ _ _)) as [[past' held']|]; auto.
           destruct IH as (e' & E & I & L). exists e'. split; [exact E|]. split; [exact I|lia].
        -- eexists; reflexivity.
      * rewrite PE. reflexivity.
    + set (held := x :: held0) in *. assert (HN : held <> []) by discriminate. clearbody held. cbn zeta.
      pose proof (pe_encode_held_all B cap nl e past held rows b r s Hs HF) as PH.
      change (2 ^ 32)%N with 4294967296%N in PH. change (4294967296 - 2)%N with 4294967294%N in PH.
      specialize (PH HB Hz HI HN Hb ltac:(lia)). cbn zeta in PH.
      destruct ((B <? N.of_nat (num_vals held * sz))%N && checks p).
      { cbn [fst snd emits]. rewrite PH. reflexivity. }
      set (k := if (B <? N.of_nat (num_vals held * sz))%N then num_vals r else min (cap - num_vals held) (num_vals r)) in *.
      clearbody k.
      pose proof (take_length k r) as TL.
      assert (DL : length (take_vals k r) + length (drop_vals k r) = length r) by (rewrite <- app_length, take_drop; reflexivity).
      assert (LF : length (held ++ take_vals k r) <= length held + length r) by (rewrite app_length; lia).
      destruct (N.ltb_spec (N.of_nat (num_vals (held ++ take_vals k r))) B) as [LT|GE].
      * destruct PH as (e1 & -> & I1). rewrite bind_ret.
        specialize (IH rowss' e1 past _ rows s Hbs I1 ltac:(lia)). cbn zeta in IH.
        destruct (emits wr sz nl rows _ s) as [[[rows2 s2] [[]|]]|z|]; auto.
        destruct (snd (col_all _ _ _ _ _ _ _ _)) as [[past' held']|]; auto.
        destruct IH as (e' & E & I & L). exists e'. split; [exact E|]. split; [exact I|lia].
      * cbn [fst snd]. rewrite app_comm_cons, emits_app.
        destruct (emits wr sz nl rows (_ :: counted _ _ (cut cap (drop_vals k r))) s) as [[[rows1 s1] [[]|]]|z|]; cbn [bind];
          [| | |contradiction].
        -- destruct PH as (e1 & -> & I1). rewrite bind_ret.
           pose proof (rest_length cap (drop_vals k r) Hc) as R3.
           specialize (IH rowss' e1 _ _ rows1 s1 Hbs I1 ltac:(lia)). cbn zeta in IH.
           destruct (emits wr sz nl rows1 _ s1) as [[[rows2 s2] [[]|]]|z|]; auto.
           destruct (snd (col_all _ _ _ _ _ _ _ _)) as [[past' held']|]; auto.
           destruct IH as (e' & E & I & L). exists e'. split; [exact E|]. split; [exact I|lia].
        -- destruct PH as (e1 & ->). rewrite bind_ret. eexists; reflexivity.
        -- rewrite PH. reflexivity.
Qed.
End All.

(** Every block of a run and what is held back can be read back, and the values
    come from the buffers. *)
Definition good_rows {T} (nl : bool) (from : list (option T)) (bound : nat) (w : list (option T)) : Prop :=
  ends_some w /\ rows_allowed nl w /\ length w <= bound /\ incl (somes w) (somes from).

Lemma good_cut {T} nl cap pos (r : list (option T)) : 0 < cap -> rows_allowed nl r ->
  Forall (good_rows nl r (length r)) (map snd (counted nl pos (cut cap r))) /\ good_rows nl r (length r) (rest_of cap r).
Proof.
  intros Hc HA. rewrite counted_snd. pose proof (windows_spec (S (num_vals r)) cap r) as W. fold (cut cap r) in W.
  pose proof (cut_rest cap r Hc) as CR. pose proof (take_drop (num_vals r) r) as TD. fold (trim r) in TD. rewrite <- CR in TD.
  split.
  - rewrite Forall_forall in *. intros w Hw. destruct (W w Hw) as [_ W2].
    apply in_split in Hw. destruct Hw as (l1 & l2 & E). rewrite E in TD. rewrite concat_app in TD. cbn [concat] in TD.
    rewrite <- !app_assoc in TD. split; [exact W2|]. split; [|split].
    + rewrite <- TD in HA. apply allowed_app in HA. destruct HA as [_ HA]. apply allowed_app in HA. tauto.
    + pose proof (f_equal (@length _) TD) as L. rewrite !app_length in L. lia.
    + intros v Hv. rewrite <- TD, !somes_app, !in_app_iff. auto.
  - split; [apply rest_spec; exact Hc|]. split; [|split].
    + rewrite <- TD in HA. apply allowed_app in HA. destruct HA as [HA _]. apply allowed_app in HA. tauto.
    + apply rest_length; exact Hc.
    + intros v Hv. rewrite <- TD, !somes_app, !in_app_iff. auto.
Qed.

Lemma good_weaken {T} nl (from from' : list (option T)) n n' w : good_rows nl from n w -> n <= n' -> incl (somes from) (somes from') -> good_rows nl from' n' w.
Proof. intros (A & B & C & D) H1 H2. split; [exact A|]. split; [exact B|]. split; [lia|eapply incl_tran; eauto]. Qed.

Lemma col_all_blocks {T} nl checked sz B cap : 0 < cap -> forall rowss past (held : list (option T)),
  Forall (rows_allowed nl) rowss -> rows_allowed nl held -> ends_some held ->
  let run := col_all nl checked sz B cap past held rowss in
  let good := good_rows nl (held ++ concat rowss) (length held + sum_len rowss) in
  Forall good (map snd (fst run))
  /\ match snd run with Some (_, held') => good held' | None => True end.
Proof.
  intros Hc. induction rowss as [|r rowss IH]; intros past held HA HH HE; cbn [col_all]; cbn zeta.
  - cbn [fst snd map concat]. split; [constructor|]. rewrite app_nil_r. repeat split; auto; [lia|apply incl_refl].
  - inversion HA as [|? ? HR HA']; subst.
    assert (EL : sum_len (r :: rowss) = length r + sum_len rowss) by (unfold sum_len; cbn [concat]; apply app_length).
    assert (UP : forall (held0 : list (option T)) (run0 : list (nat * list (option T)) * option (list (list (option T)) * list (option T))),
      length held0 <= length held + length r -> incl (somes held0) (somes (held ++ r)) ->
      Forall (good_rows nl (held0 ++ concat rowss) (length held0 + sum_len rowss)) (map snd (fst run0))
      /\ match snd run0 with Some (_, held') => good_rows nl (held0 ++ concat rowss) (length held0 + sum_len rowss) held' | None => True end ->
      Forall (good_rows nl (held ++ concat (r :: rowss)) (length held + sum_len (r :: rowss))) (map snd (fst run0))
      /\ match snd run0 with Some (_, held') => good_rows nl (held ++ concat (r :: rowss)) (length held + sum_len (r :: rowss)) held' | None => True end).
    { intros held0 run0 H1 H2 [H3 H4].
      assert (IN : incl (somes (held0 ++ concat rowss)) (somes (held ++ concat (r :: rowss)))).
      { cbn [concat]. rewrite app_assoc, !(somes_app _ (concat rowss)). intros v Hv. apply in_app_iff in Hv. apply in_app_iff. destruct Hv as [Hv|Hv]; auto. }
      split.
      - eapply Forall_impl; [|exact H3]. intros w Hw. eapply good_weaken; [exact Hw|lia|exact IN].
      - destruct (snd run0) as [[? h]|]; [|exact I]. eapply good_weaken; [exact H4|lia|exact IN]. }
    destruct held as [|x held0].
    + destruct (good_cut nl cap 0 r Hc HR) as [G1 G2]. destruct G2 as (G2 & G3 & G4 & G5).
      specialize (IH past (rest_of cap r) HA' G3 G2). cbn zeta in IH.
      apply (UP (rest_of cap r)) in IH; [|cbn [length]; lia|exact G5]. destruct IH as [I1 I2]. cbn [fst snd].
      split; [|exact I2]. rewrite map_app. apply Forall_app. split; [|exact I1].
      eapply Forall_impl; [|exact G1]. intros w Hw. eapply good_weaken; [exact Hw|lia|].
      cbn [app concat]. rewrite somes_app. apply incl_appl, incl_refl.
    + set (held := x :: held0) in *. assert (HN : held <> []) by discriminate. clearbody held.
      destruct ((B <? N.of_nat (num_vals held * sz))%N && checked).
      { cbn [fst snd map]. split; [constructor|exact I]. }
      set (k := if (B <? N.of_nat (num_vals held * sz))%N then num_vals r else min (cap - num_vals held) (num_vals r)).
      assert (KB : k <= num_vals r) by (unfold k; destruct (_ <? _)%N; lia). clearbody k.
      set (w := take_vals k r). assert (EB : r = w ++ drop_vals k r) by (symmetry; apply take_drop).
      assert (HW : rows_allowed nl w) by (apply allowed_take; exact HR).
      assert (HD : rows_allowed nl (drop_vals k r)) by (rewrite EB in HR; apply allowed_app in HR; tauto).
      assert (HWE : ends_some (held ++ w)).
      { assert (ends_some w) by (apply take_ends; exact KB). destruct w as [|y w0] eqn:EW; [rewrite app_nil_r; exact HE|]. apply ends_app; [assumption|discriminate]. }
      assert (HA2 : rows_allowed nl (held ++ w)) by (apply allowed_app; auto).
      assert (LR : length r = length w + length (drop_vals k r)) by (rewrite EB at 1; apply app_length).
      assert (LW : length (held ++ w) <= length held + length r) by (rewrite app_length; lia).
      assert (IW : incl (somes (held ++ w)) (somes (held ++ r))).
      { rewrite EB at 1. rewrite app_assoc, (somes_app (held ++ w)). apply incl_appl, incl_refl. }
      destruct (_ <? B)%N.
      * specialize (IH past (held ++ w) HA' HA2 HWE). cbn zeta in IH. apply (UP (held ++ w)) in IH; auto.
      * destruct (good_cut nl cap (length w) (drop_vals k r) Hc HD) as [G1 G2]. destruct G2 as (G2 & G3 & G4 & G5).
        specialize (IH ((held ++ w) :: past) (rest_of cap (drop_vals k r)) HA' G3 G2). cbn zeta in IH.
        assert (ID : incl (somes (drop_vals k r)) (somes (held ++ r))).
        { rewrite EB at 2. rewrite !somes_app. apply incl_appr, incl_appr, incl_refl. }
        apply (UP (rest_of cap (drop_vals k r))) in IH; [|lia|eapply incl_tran; eauto]. destruct IH as [I1 I2]. cbn [fst snd].
        split; [|exact I2]. cbn [map snd].
        assert (IR : incl (somes (held ++ r)) (somes (held ++ concat (r :: rowss)))).
        { cbn [concat]. rewrite app_assoc, (somes_app (held ++ r)). apply incl_appl, incl_refl. }
        constructor.
        -- destruct (seen_spec nl past (held ++ w) HWE) as (S1 & S2 & S3 & S4). split; [exact S2|]. split; [apply S4; exact HA2|].
           split; [lia|]. rewrite S1. eapply incl_tran; eauto.
        -- rewrite map_app. apply Forall_app. split; [|exact I1]. eapply Forall_impl; [|exact G1]. intros u Hu.
           eapply good_weaken; [exact Hu|lia|eapply incl_tran; eauto].
Qed.

(** What is written, block by block. *)
Lemma column_written :
  forall p sz B cap nl bufs rowss,
  0 < sz -> (N.of_nat sz < 2 ^ 31)%N -> (0 < B < 2 ^ 32)%N ->
  (B <= N.of_nat (cap * sz) < B + N.of_nat sz)%N ->
  Forall2 (fun b rows => pb_holds b nl rows) bufs rowss ->
  (total_rows rowss <= 2 ^ 32 - 8)%N -> Forall (fit sz) rowss ->
  let run := col_all nl (checks p) sz B cap [] [] rowss in
  match snd run with
  | Some (past, held) =>
      let blocks := fst run ++ flush_block (seen nl past held) in
      if (total (map fst blocks) <=? u32_max)%N then
        exists written, pe_column p sz B nl bufs = Ret (written, Ok tt)
          /\ map fst written = row_ids 0 (map fst blocks)
          /\ reads_blocks p sz nl written (map snd blocks)
          /\ map snd written = map (prim_block sz nl) (map snd blocks)
          /\ Forall (fun w => ends_some w /\ rows_allowed nl w /\ (N.of_nat (length w) <= 2 ^ 32 - 8)%N /\ fit sz w) (map snd blocks)
      else pe_column p sz B nl bufs = Panic PExpect
  | None =>
      if (total (map fst (fst run)) <=? u32_max)%N then pe_column p sz B nl bufs = Panic POverflow
      else pe_column p sz B nl bufs = Panic PExpect
  end.
Proof.
  intros p sz B cap nl bufs rowss Hs Hz HB HF HH HT HV.
  change (2 ^ 32 - 8)%N with 4294967288%N in HT. unfold total_rows in HT. fold (sum_len rowss) in HT.
  assert (Hc : 0 < cap) by (destruct HF; destruct cap; cbn in *; lia).
  assert (HA : Forall (rows_allowed nl) rowss).
  { clear -HH. induction HH as [|b r bufs rowss H _ IH]; constructor; auto. eapply holds_allowed; eauto. }
  pose proof (pe_encodes_all collect p sz B cap nl Hs HF HB Hz bufs rowss (pe_new B nl) [] [] 0%N [] HH (pe_has_new B nl)) as PE.
  change (2 ^ 32 - 2)%N with 4294967294%N in PE. cbn [length Nat.add] in PE.
  specialize (PE ltac:(clear -HT; lia)). cbn zeta in PE |- *.
  pose proof (col_all_blocks nl (checks p) sz B cap Hc rowss [] [] HA ltac:(right; constructor) ltac:(left; reflexivity)) as CB.
  cbn zeta in CB. cbn [length app Nat.add] in CB.
  set (run := col_all nl (checks p) sz B cap [] [] rowss) in *. destruct CB as [CB1 CB2].
  assert (GOOD : forall w, good_rows nl (concat rowss) (sum_len rowss) w ->
    ends_some w /\ rows_allowed nl w /\ (N.of_nat (length w) <= 2 ^ 32 - 8)%N /\ fit sz w).
  { intros w (W1 & W2 & W3 & W4). change (2 ^ 32 - 8)%N with 4294967288%N. split; [exact W1|]. split; [exact W2|]. split; [lia|].
    unfold fit. apply Forall_forall. intros v Hin. apply W4 in Hin. clear -Hin HV.
    induction HV as [|r rowss Hr _ IH]; [destruct Hin|]. cbn [concat] in Hin. rewrite somes_app, in_app_iff in Hin.
    destruct Hin as [Hin|Hin]; [|auto]. unfold fit in Hr. rewrite Forall_forall in Hr. auto. }
  rewrite emits_collect in PE. unfold pe_column, pe_finish. rewrite N.add_0_l in PE.
  destruct (N.leb_spec (total (map fst (fst run))) u32_max) as [L|L].
  - cbn [orb app] in PE. destruct (snd run) as [[past held]|]; [|rewrite PE; reflexivity].
    destruct PE as (e' & -> & I & LH). rewrite bind_ret.
    assert (HS : num_vals held <= length held) by apply somes_length_le.
    assert (HE : ends_some held) by apply CB2.
    destruct (seen_spec nl past held HE) as (S1 & S2 & S3 & S4).
    rewrite map_app, total_app.
    assert (PF : match emits collect sz nl (total (map fst (fst run))) (flush_block (seen nl past held)) (labelled sz nl 0 (fst run)) with
      | Ret (rows', s', res) => exists e2, pe_flush collect p sz e' (labelled sz nl 0 (fst run)) = Ret (e2, s', res)
      | Panic k => pe_flush collect p sz e' (labelled sz nl 0 (fst run)) = Panic k
      | NoFuel => False end).
    { pose proof (pe_has_len _ _ _ _ _ _ I) as [HL0 _]. unfold pe_flush. rewrite HL0. destruct held as [|x h0] eqn:EH.
      - assert (seen nl past [] = (@nil (option N))) as -> by (unfold seen; destruct nl; reflexivity).
        cbn [flush_block emits num_vals somes length Nat.ltb Nat.leb]. eexists; reflexivity.
      - rewrite <- EH in *. assert (HN : held <> []) by (rewrite EH; discriminate). clear EH x h0.
        pose proof (nonempty_num held HE HN) as HP. destruct (Nat.ltb_spec 0 (num_vals held)); [|lia].
        pose proof (pe_write_held collect p sz B nl e' past held (total (map fst (fst run))) (labelled sz nl 0 (fst run)) Hs I HN) as PW.
        change (2 ^ 32)%N with 4294967296%N in PW. change (2 ^ 31)%N with 2147483648%N in Hz.
        specialize (PW ltac:(lia) ltac:(unfold u64_lim; rewrite Nat2N.inj_mul; nia)). cbn zeta in PW.
        assert (EF : flush_block (seen nl past held) = [(length (seen nl past held), seen nl past held)]).
        { destruct (seen nl past held) eqn:E; [|reflexivity]. exfalso. unfold num_vals in HP. rewrite <- S1 in HP. cbn in HP. lia. }
        rewrite EF. destruct (emits collect sz nl _ [_] _) as [[[rows' s'] res]|k|]; [| |contradiction].
        + destruct PW as (e2 & v & -> & _). rewrite bind_ret. eexists. destruct res as [[]|]; reflexivity.
        + rewrite PW. reflexivity. }
    rewrite emits_collect in PF.
    destruct (N.leb_spec (total (map fst (fst run)) + total (map fst (flush_block (seen nl past held)))) u32_max) as [L2|L2]; cbn [orb] in PF.
    + destruct PF as (e2 & ->). rewrite bind_ret. eexists. split; [reflexivity|].
      pose proof (labelled_app sz nl (fst run) 0 (flush_block (seen nl past held))) as LA. rewrite N.add_0_l in LA. rewrite <- LA.
      split; [rewrite labelled_ids, map_app; reflexivity|].
      assert (GB : Forall (fun w => ends_some w /\ rows_allowed nl w /\ (N.of_nat (length w) <= 2 ^ 32 - 8)%N /\ fit sz w) (map snd (fst run ++ flush_block (seen nl past held)))).
      2:{ split; [unfold reads_blocks; rewrite read_labelled; [rewrite map_map; reflexivity|exact Hs|exact Hz|exact GB]|]. split; [|exact GB].
          rewrite labelled_blocks. try rewrite map_map. reflexivity. }
      rewrite map_app. apply Forall_app. split; [eapply Forall_impl; [|exact CB1]; exact GOOD|].
      assert (GS : good_rows nl (concat rowss) (sum_len rowss) (seen nl past held)).
      { destruct CB2 as (C1 & C2 & C3 & C4). split; [exact S2|]. split; [apply S4; exact C2|]. split; [lia|]. rewrite S1. exact C4. }
      destruct (seen nl past held) as [|y w0] eqn:EW; [constructor|]. constructor; [|constructor]. apply GOOD. exact GS.
    + destruct (flush_block (seen nl past held)) eqn:EF; [cbn in L2; lia|]. rewrite PF. reflexivity.
  - cbn [orb] in PE. assert (PP : pe_encodes collect p sz (pe_new B nl) bufs [] = Panic PExpect).
    { destruct (fst run) as [|i items]; [cbn in L; unfold u32_max in L; lia|exact PE]. }
    rewrite PP. destruct (snd run) as [[past held]|]; [|reflexivity].
    rewrite map_app, total_app. destruct (N.leb_spec (total (map fst (fst run)) + total (map fst (flush_block (seen nl past held)))) u32_max); [lia|reflexivity].
Qed.

(** C29 for every fixed-width column: nulls or not, every width, block size and
    build, and every history.  Exactly the blocks of [col_all], and what is held
    back in the end as it is [seen], are written, with the identifiers of
    [row_ids]; the run panics exactly when the counter would pass 2^32-1, or when
    overflows are detected and a buffer arrives while more than a block is held
    back. *)
Theorem C29_every_column_exact :
  forall p sz B cap nl bufs rowss,
  0 < sz -> (N.of_nat sz < 2 ^ 31)%N -> (0 < B < 2 ^ 32)%N ->
  (B <= N.of_nat (cap * sz) < B + N.of_nat sz)%N ->
  Forall2 (fun b rows => pb_holds b nl rows) bufs rowss ->
  (total_rows rowss <= 2 ^ 32 - 8)%N -> Forall (fit sz) rowss ->
  let run := col_all nl (checks p) sz B cap [] [] rowss in
  match snd run with
  | Some (past, held) =>
      let blocks := fst run ++ flush_block (seen nl past held) in
      if (total (map fst blocks) <=? u32_max)%N then
        exists written, pe_column p sz B nl bufs = Ret (written, Ok tt)
          /\ map fst written = row_ids 0 (map fst blocks)
          /\ reads_blocks p sz nl written (map snd blocks)
      else pe_column p sz B nl bufs = Panic PExpect
  | None =>
      if (total (map fst (fst run)) <=? u32_max)%N then pe_column p sz B nl bufs = Panic POverflow
      else pe_column p sz B nl bufs = Panic PExpect
  end.
Proof.
  intros p sz B cap nl bufs rowss Hs Hz HB HF HH HT HV. pose proof (column_written p sz B cap nl bufs rowss Hs Hz HB HF HH HT HV) as X. cbn zeta in *.
  destruct (snd (col_all nl (checks p) sz B cap [] [] rowss)) as [[past held]|]; [|exact X].
  destruct (_ <=? _)%N; [|exact X]. destruct X as (written & A & C & D & _). eauto.
Qed.
Print Assumptions C29_every_column_exact.

(** Nullable columns of two kinds not covered by [C29_column_exact]: values of
    one byte, where the second held back rows are [null 3 null 4] and show as
    [3 4]; and values of four bytes with a block size of 6 bytes and no overflow
    checks. *)
Example C29_every_column_witness :
  let v (n : N) := Some n in
  let bytes := [[v 1]; [v 2; None; v 3]; [None; v 4; v 5; None]; [v 6]]%N in
  let words := [[v 1; v 2; v 3]; [v 4; None; v 5]; [None; v 6; v 7; v 8]; [v 9]; [v 10; None; v 11; None]]%N in
  col_all true true 1 2 2 [] [] bytes
  = ([(2, [v 1%N; v 2%N]); (2, [v 3%N; v 4%N]); (2, [v 5%N; v 6%N])],
     Some ([[v 5%N; v 6%N]; [None; v 3%N; None; v 4%N]; [v 1%N; v 2%N]], []))
  /\ match pe_column_rows Debug 1 2 true bytes with
     | Ret (written, Ok _) => map fst written = [1; 3; 5]%N
         /\ reads_blocks Debug 1 true written [[v 1; v 2]; [v 3; v 4]; [v 5; v 6]]%N
     | _ => False end
  /\ map fst (fst (col_all true false 4 6 2 [] [] words)) = [2; 7; 3]
  /\ match pe_column_rows Release 4 6 true words with
     | Ret (written, Ok _) => map fst written = [1; 8; 11]%N
         /\ reads_blocks Release 4 true written [[v 1; v 2]; [v 3; v 4; None; v 6; v 7; v 8; v 9]; [v 10; None; v 11]]%N
     | _ => False end
  /\ snd (col_all true true 4 6 2 [] [] words) = None /\ pe_column_rows Debug 4 6 true words = Panic POverflow.
Proof. vm_compute. repeat split. Qed.
