(** Property C106: every history of a string column whose panics are caught and
    whose failed writes are passed over (raw/binary_enc.rs). *)
From Verif Require Import Base BaseProofs Spec SpecRows SpecBin SpecFail Varint VarintProofs Buffers Observe BitmapProofs BuffersProofs
  Rle RleTrackProofs PropsRle Offsets OffsetsProofs Sink BinEnc ReadBlock ReadBinBlock ObserveEnc RowsProofs BlockProofs PrimRunProofs BinBlockProofs BinEncProofs
  BinRunProofs PropsBin PropsBinFail Caught PropsCaughtBuf PropsCaughtEnc.
Open Scope nat_scope.

(** * What the calls do, in rows *)

(** The rows held back, those held back and written before, and the number of
    rows counted. *)
Record bin_state := mk_bs { bs_past : list (list row); bs_held : list row; bs_rows : N }.

Definition good {A} (out : outcome (result A)) : bool := match out with Ret (Ok _) => true | _ => false end.

Section Rows.
Context {S : Type} (wr : sink_fn S) (p : profile) (nl : bool) (B : N).

(** Blocks given to the sink until one is refused, has more than 128 items, or
    cannot be counted; a block is counted before it is given to the sink. *)
Fixpoint offer_items (rows : N) (items : list bin_item) (s : S) : N * S * outcome (result unit) :=
  match items with
  | [] => (rows, s, Ret (Ok tt))
  | it :: rest =>
      let rows' := (rows + N.of_nat (it_count it))%N in
      if 128 <? num_vals (it_rows it) then (rows, s, Panic PAssert)
      else if (rows' <=? 4294967295)%N then
        match wr s (rows' - 1)%N (bin_block nl (it_rows it) (it_extra it)) with
        | (s', Ok _) => offer_items rows' rest s'
        | (s', Err) => (rows', s', Ret Err)
        end
      else (rows, s, Panic PExpect)
  end.

(** The blocks [fst c] and then the end [snd c] of a buffer (see [bin_cut]); if it
    does not come to this end, nothing is held back. *)
Definition finish_items (past : list (list row)) (rows : N) (s : S) (c : list bin_item * ending) : bin_state * S * outcome (result unit) :=
  let '(rows, s, out) := offer_items rows (fst c) s in
  if good out then
    match snd c with
    | Held R => (mk_bs past R rows, s, Ret (Ok tt))
    | Stuck k => (mk_bs past [] rows, s, Panic k)
    end
  else (mk_bs past [] rows, s, out).

Definition held_item (past : list (list row)) (R : list row) : list bin_item :=
  match R with [] => [] | _ => [mk_item (length (seen nl past R)) (seen nl past R) []] end.

(** A buffer with the rows [Some b], or a flush.  A call that does not end well
    keeps the rows it has held back. *)
Definition items_call (st : bin_state) (s : S) (c : option (list row)) : bin_state * S * outcome (result unit) :=
  match c with
  | Some b =>
      match bs_held st with
      | [] => finish_items (bs_past st) (bs_rows st) s (bin_cut p nl (Datatypes.S (num_vals b)) B 0 0 b)
      | held =>
          match bin_room p B held b with
          | Underflow => (st, s, Panic POverflow)
          | Short => (mk_bs (bs_past st) (held ++ trim b) (bs_rows st), s, Ret (Ok tt))
          | Takes k =>
              let held' := held ++ take_vals k b in
              let '(rows, s, out) := offer_items (bs_rows st) (held_item (bs_past st) held') s in
              if good out then finish_items (held' :: bs_past st) rows s (bin_cut p nl (Datatypes.S (num_vals b)) B k (length (take_vals k b)) (drop_vals k b))
              else (mk_bs (bs_past st) held' rows, s, out)
          end
      end
  | None =>
      let '(rows, s, out) := offer_items (bs_rows st) (held_item (bs_past st) (bs_held st)) s in
      (mk_bs (bs_past st) (bs_held st) rows, s, out)
  end.

Fixpoint items_calls (st : bin_state) (s : S) (cs : list (option (list row))) : bin_state * S * list (outcome (result unit)) :=
  match cs with
  | [] => (st, s, [])
  | c :: rest =>
      let '(st, s, out) := items_call st s c in
      let '(st, s, outs) := items_calls st s rest in
      (st, s, out :: outs)
  end.
End Rows.

(** * The encoder does this *)

Section Does.
Context {S : Type} (wr : sink_fn S) (p : profile).

Lemma offer_item nl rows it s : offer_items wr nl rows [it] s =
  match bemits wr nl rows [it] s with
  | Ret (rows', s', res) => (rows', s', Ret res)
  | Panic k => (rows, s, Panic k)
  | NoFuel => (rows, s, NoFuel)
  end.
Proof.
  cbn [offer_items bemits]. cbn zeta. destruct (128 <? _); [reflexivity|]. unfold be_add_rows. change 4294967295%N with u32_max.
  destruct (N.leb_spec (N.of_nat (it_count it)) u32_max); cbn [bind].
  - destruct (N.leb_spec (rows + N.of_nat (it_count it)) u32_max); cbn [bind]; [|reflexivity].
    destruct (wr s (rows + N.of_nat (it_count it) - 1)%N _) as [s' [[]|]]; reflexivity.
  - destruct (N.leb_spec (rows + N.of_nat (it_count it)) u32_max); [lia|reflexivity].
Qed.

Lemma offer_items_app nl a b : forall rows s, offer_items wr nl rows (a ++ b) s =
  let '(rows', s', out) := offer_items wr nl rows a s in if good out then offer_items wr nl rows' b s' else (rows', s', out).
Proof.
  induction a as [|it a IH]; intros rows s; cbn [app offer_items good]; [reflexivity|]. cbn zeta. destruct (128 <? _); [reflexivity|].
  destruct (_ <=? _)%N; [|reflexivity]. destruct (wr s _ _) as [s' [[]|]]; [apply IH|reflexivity].
Qed.

Definition told {A} (v : A) (out : outcome (result unit)) : outcome (result A) :=
  match out with Ret (Ok _) => Ret (Ok v) | Ret Err => Ret Err | Panic k => Panic k | NoFuel => NoFuel end.

Lemma block_offers B nl e past R rows buf items bits a k extra w vp s cnt ex :
  be_inv B nl e past R rows ->
  bb_data buf = concat items -> bb_offsets buf = running_offsets 0 items -> (N.of_nat (cbytes items) <= u32_max)%N ->
  match bb_validity buf with
  | Some bm => nl = true /\ reads_as bm bits /\ valid_window bits vp k (validity_of w)
               /\ (N.of_nat (length w) <= 2 ^ 32)%N /\ cnt = vp + length w
  | None => nl = false /\ cnt = k end ->
  1 <= k -> (N.of_nat k < 2 ^ 63)%N -> a + k + extra <= length items ->
  somes w = firstn k (skipn a items) -> ex = concat (firstn extra (skipn k (skipn a items))) ->
  let from := N.of_nat (cbytes (firstn a items)) in
  let size := N.of_nat (cbytes (firstn (k + extra) (skipn a items))) in
  let c := mk_bchunk a (a + k) from (from + size) size (N.of_nat k) in
  let '(rows', s', out) := offer_items wr nl rows [mk_item cnt w ex] s in
  exists e', be_write_at wr p e buf c vp s = ((e', s'), told (if nl then cnt else 0) out) /\ be_inv B nl e' past R rows'.
Proof.
  intros HI HD HO HL HV Hk Hk63 Hs Hw Hex from size c.
  pose proof (be_write_block wr p B nl e past R rows buf items bits a k extra w vp s cnt ex HI HD HO HL HV Hk Hk63 Hs Hw Hex) as PW.
  cbn zeta in PW. fold from size c in PW. rewrite offer_item.
  destruct (bemits wr nl rows [mk_item cnt w ex] s) as [[[rows' s'] res]|j|]; [| |contradiction].
  - destruct PW as (e' & E & I' & _). rewrite be_write_same in E. apply uncaught_known in E. exists e'. rewrite E. destruct res; auto.
  - rewrite be_write_same in PW. apply uncaught_panic in PW. pose proof (write_panics _ _ _ _ _ _ _ _ PW) as W. cbn zeta in W.
    destruct (be_write_at wr p e buf c vp s) as [[e1 s1] out]. cbn [fst snd] in *. subst out. destruct W as (-> & W1 & W2 & W3).
    exists e1. split; [reflexivity|]. eapply inv_same; eassumption.
Qed.

Lemma remaining_offers B nl e past R rows s :
  be_inv B nl e past R rows -> R <> [] -> (N.of_nat (bytes_of R) <= u32_max)%N -> (N.of_nat (length R) <= 2 ^ 32)%N ->
  let '(rows', s', out) := offer_items wr nl rows (held_item nl past R) s in
  exists e' v, be_write_remaining_at wr p e s = ((e', s'), told v out) /\ be_inv B nl e' past R rows'.
Proof.
  intros HI HN HL HR. pose proof (be_write_remaining_ok wr p B nl e past R rows s HI HN HL HR) as PW. cbn zeta in PW.
  assert (EH : held_item nl past R = [mk_item (length (seen nl past R)) (seen nl past R) []]) by (destruct R; [congruence|reflexivity]).
  rewrite EH, offer_item. destruct (bemits wr nl rows _ s) as [[[rows' s'] res]|j|]; [| |contradiction].
  - destruct PW as (e' & v & E & I' & _). rewrite be_write_remaining_same in E. apply uncaught_known in E. exists e', v. rewrite E. destruct res; auto.
  - rewrite be_write_remaining_same in PW. apply uncaught_panic in PW. unfold be_write_remaining_at in *. cbn zeta in *.
    destruct (idx _ _) as [o|k|]; cbn [pure] in *.
    + pose proof (write_panics _ _ _ _ _ _ _ _ PW) as W. cbn zeta in W.
      destruct (be_write_at wr p e _ _ _ s) as [[e1 s1] out]. cbn [fst snd] in *. subst out. destruct W as (-> & W1 & W2 & W3).
      exists e1, 0. split; [reflexivity|]. eapply inv_same; eassumption.
    + cbn [snd] in PW. injection PW as ->. exists e, 0. split; [reflexivity|exact HI].
    + discriminate PW.
Qed.

Lemma cut_offers B nl past : (0 < B <= u32_max)%N ->
  forall f fuel rest before e rows buf vp s,
  be_inv B nl e past [] rows -> bb_holds buf nl (before ++ rest) ->
  (N.of_nat (bytes_of (before ++ rest)) <= u32_max)%N ->
  (N.of_nat (length before + length rest) <= 2 ^ 32 - 2)%N ->
  (nl = true -> vp = length before) -> num_vals rest < f -> num_vals rest < fuel ->
  let '(st', s', out) := finish_items wr nl past rows s (bin_cut p nl f B (num_vals before) (length before) rest) in
  exists e', be_loop_at wr p fuel e buf (num_vals before) vp s = ((e', s'), out)
    /\ be_inv B nl e' (bs_past st') (bs_held st') (bs_rows st') /\ length (bs_held st') <= length rest /\ bytes_of (bs_held st') <= bytes_of rest.
Proof.
  intros HB. change (2 ^ 32 - 2)%N with 4294967294%N.
  induction f as [|f IH]; intros fuel rest before e rows buf vp s HI HH HL HRows HV Hf1 Hf2; [lia|].
  destruct fuel as [|fuel]; [lia|]. cbn [bin_cut be_loop_at].
  pose proof HH as (HD & HO & HS).
  set (items := somes (before ++ rest)) in *.
  assert (LI : length items = num_vals before + num_vals rest) by (unfold items; fold (num_vals (before ++ rest)); apply num_vals_app).
  rewrite HO, running_length. destruct (Nat.ltb_spec (num_vals before) (Datatypes.S (length items))); [|lia].
  assert (HL0 := HL). unfold bytes_of in HL. fold items in HL. fold (cbytes items) in HL.
  assert (HM : be_min e = B) by apply HI. rewrite HM.
  rewrite (be_chunk_ok p buf items) by (try lia; assumption).
  assert (ESk : skipn (num_vals before) items = somes rest) by apply skipn_somes_app.
  assert (EFi : firstn (num_vals before) items = somes before) by apply firstn_somes_app.
  rewrite ESk. pose proof (somes_length_le rest) as SL. pose proof (somes_length_le before) as SLb. fold (num_vals rest) in SL.
  fold (num_vals before) in SLb.
  destruct (fill B (somes rest)) as [q|] eqn:EF; cbn zeta.
  - pose proof (fill_some _ _ _ EF) as (F1 & F2 & F3). pose proof (fill_pos _ _ _ EF ltac:(lia)) as F4. fold (num_vals rest) in F1.
    destruct (Nat.leb_spec q (num_vals before)) as [Q|Q].
    + (* stuck *)
      unfold sub64, usub, finish_items. cbn [fst snd offer_items good].
      assert (PA : forall len, be_write_at wr p e buf (mk_bchunk (num_vals before) q (N.of_nat (cbytes (firstn (num_vals before) items)))
            (N.of_nat (cbytes (firstn (num_vals before) items)) + N.of_nat (cbytes (firstn q (somes rest))))
            (N.of_nat (cbytes (firstn q (somes rest)))) len) vp s = ((e, s), Panic PAssert)).
      { intros len. unfold be_write_at. rewrite <- ESk.
        rewrite (encode_binary_panics p buf items (num_vals before) q q len vp (be_bitmap e) HD HO HL); [reflexivity|left; lia|lia|].
        replace (q - num_vals before) with 0 by lia. reflexivity. }
      assert (ST : be_inv B nl e past [] rows /\ length (@nil row) <= length rest /\ bytes_of (@nil row) <= bytes_of rest) by (split; [exact HI|cbn; lia]).
      cbn [bs_past bs_held bs_rows].
      destruct (N.leb_spec (N.of_nat (num_vals before)) (N.of_nat q)) as [X|X].
      * destruct (Nat.ltb_spec q (num_vals before)); [lia|].
        cbn [bind pure bc_size]. destruct (N.ltb_spec (N.of_nat (cbytes (firstn q (somes rest)))) B); [lia|]. cbn zeta.
        rewrite PA. cbn [fst snd pure]. exists e. split; [reflexivity|exact ST].
      * destruct (Nat.ltb_spec q (num_vals before)); [|lia]. destruct p.
        { cbn [bind pure]. exists e. split; [reflexivity|exact ST]. }
        cbn [bind pure bc_size]. destruct (N.ltb_spec (N.of_nat (cbytes (firstn q (somes rest)))) B); [lia|]. cbn zeta.
        rewrite PA. cbn [fst snd pure]. exists e. split; [reflexivity|exact ST].
    + (* a block *)
      rewrite sub64_ok by lia. cbn [bind pure bc_size bc_end]. destruct (N.ltb_spec (N.of_nat (cbytes (firstn q (somes rest)))) B); [lia|]. cbn zeta.
      set (k := q - num_vals before). set (w := take_vals k rest). set (rest' := drop_vals k rest).
      assert (HW : num_vals w = k) by (unfold w; rewrite num_take; lia).
      assert (HWE : ends_some w) by (apply take_ends; lia).
      assert (ER : rest = w ++ rest') by (symmetry; apply take_drop).
      assert (ELen : length rest = length w + length rest') by (rewrite ER at 1; apply app_length).
      assert (EByt : bytes_of rest = bytes_of w + bytes_of rest') by (rewrite ER at 1; apply bytes_app).
      set (cnt := if nl then length before + length w else length w).
      set (ex := concat (firstn (num_vals before) (skipn k (somes rest)))).
      pose proof (block_offers B nl e past [] rows buf items (validity_of (before ++ rest)) (num_vals before) k (num_vals before)
        w vp s cnt ex HI HD HO HL) as PW.
      assert (HVX : match bb_validity buf with
        | Some bm => nl = true /\ reads_as bm (validity_of (before ++ rest)) /\ valid_window (validity_of (before ++ rest)) vp k (validity_of w)
               /\ (N.of_nat (length w) <= 2 ^ 32)%N /\ cnt = vp + length w
        | None => nl = false /\ cnt = k end).
      { destruct (bb_validity buf) as [bm|]; cbn [validity_shows] in HS.
        - destruct HS as [-> HS]. split; [reflexivity|]. split; [exact HS|]. rewrite (HV eq_refl). split.
          + pose proof (row_window before w rest' HWE) as RW. fold (num_vals w) in RW. rewrite HW, <- ER in RW. exact RW.
          + split; [change (2 ^ 32)%N with 4294967296%N; lia|reflexivity].
        - destruct HS as [-> HS]. split; [reflexivity|]. unfold cnt. rewrite <- HW. symmetry. apply allowed_false_num. right.
          apply Forall_app in HS. destruct HS as [_ HS]. rewrite ER in HS. apply Forall_app in HS. tauto. }
      specialize (PW HVX ltac:(lia)). change (2 ^ 63)%N with 9223372036854775808%N in PW.
      specialize (PW ltac:(lia) ltac:(lia)). rewrite ESk in PW.
      specialize (PW (take_somes k rest) eq_refl). cbn zeta in PW.
      replace (num_vals before + k) with q in PW by lia. replace (k + num_vals before) with q in PW by lia.
      replace (N.of_nat q - N.of_nat (num_vals before))%N with (N.of_nat k) by lia.
      unfold finish_items. cbn [fst snd]. change (mk_item cnt w ex :: ?l) with ([mk_item cnt w ex] ++ l). rewrite offer_items_app.
      destruct (offer_items wr nl rows [mk_item cnt w ex] s) as [[rows1 s1] out1]. destruct PW as (e1 & PW & I1). rewrite PW. cbn [fst snd].
      destruct out1 as [[[]|]|j|]; cbn [good told pure bs_past bs_held bs_rows];
        [|exists e1; split; [reflexivity|]; split; [exact I1|cbn; lia]..].
      specialize (IH fuel rest' (before ++ w) e1 rows1 buf (if nl then cnt else 0) s1 I1).
      rewrite <- app_assoc, <- ER in IH. specialize (IH HH HL0).
      rewrite app_length, num_vals_app, HW in IH. specialize (IH ltac:(lia)).
      assert (HV' : nl = true -> (if nl then cnt else 0) = length before + length w) by (unfold cnt; intros ->; reflexivity).
      specialize (IH HV'). unfold rest' in IH. rewrite num_drop in IH. fold rest' in IH. specialize (IH ltac:(lia) ltac:(lia)).
      replace (num_vals before + k) with q in IH by lia. unfold finish_items in IH.
      destruct (offer_items wr nl rows1 (fst (bin_cut p nl f B q (length before + length w) rest')) s1) as [[rows2 s2] out2].
      destruct (good out2); [destruct (snd (bin_cut p nl f B q (length before + length w) rest')) as [R'|j]|];
        destruct IH as (e' & E & I' & L1 & L2); exists e'; (split; [exact E|]; split; [exact I'|lia]).
  - (* the rest is held back *)
    apply fill_none in EF. cbn [bind pure bc_size bc_start bc_end]. destruct (N.ltb_spec (N.of_nat (cbytes (somes rest))) B); [|lia].
    pose proof (be_inv_len _ _ _ _ _ _ HI) as (HLn & HN0 & HLa & HBy).
    assert (ER : rest = trim rest ++ drop_vals (num_vals rest) rest) by (symmetry; apply take_drop).
    assert (HA : rows_allowed nl (trim rest)).
    { apply bb_holds_allowed in HH. apply allowed_app in HH. apply allowed_take. tauto. }
    assert (ET : somes (trim rest) = somes rest) by (unfold trim; rewrite take_somes; apply firstn_all).
    pose proof (bb_append_from_eq p (be_remaining e) buf nl before (trim rest) (drop_vals (num_vals rest) rest)) as PA.
    rewrite <- ER in PA. specialize (PA HH HN0 (trim_ends rest)).
    rewrite HD, HBy in PA. fold items in PA. fold (cbytes items) in PA. specialize (PA HL).
    rewrite HBy in HLa. specialize (PA HLa). rewrite ET in PA. fold (cbytes (somes rest)) in PA. change (bytes_of []) with 0 in PA.
    specialize (PA ltac:(lia)). rewrite app_length in PA. specialize (PA ltac:(unfold u64_lim; lia)).
    fold (num_vals before) (num_vals rest) in PA. rewrite LI.
    assert (EQ : bb_append_from p (be_remaining e) buf (num_vals before) (num_vals before + num_vals rest) vp
               = bb_append_from p (be_remaining e) buf (num_vals before) (num_vals before + num_vals rest) (length before)).
    { destruct nl; [rewrite HV by reflexivity; reflexivity|]. eapply bvalidity_pos_irrelevant; eauto. }
    destruct (be_inv_extend B nl e past [] rows (trim rest) HI HA (trim_ends rest)) as (b & EB & I').
    { unfold bytes_of at 2. rewrite ET. fold (cbytes (somes rest)). change (bytes_of []) with 0. lia. }
    rewrite EB, bind_ret in PA. rewrite PA, bb_append_from_same in EQ. apply uncaught_pair in EQ. rewrite EQ. cbn [fst snd pure]. cbn zeta.
    unfold finish_items. cbn [fst snd offer_items good bs_past bs_held bs_rows]. exists (be_set_remaining e b). split; [reflexivity|]. split; [exact I'|].
    rewrite trim_bytes. split; [|lia]. apply (f_equal (@length _)) in ER. rewrite app_length in ER. lia.
Qed.

Lemma encode_items B nl e st buf b s : (0 < B <= u32_max)%N ->
  be_inv B nl e (bs_past st) (bs_held st) (bs_rows st) -> bb_holds buf nl b ->
  (N.of_nat (bytes_of (bs_held st) + bytes_of b) < u32_max)%N -> (N.of_nat (length (bs_held st) + length b) <= 2 ^ 32 - 2)%N ->
  let '(st', s', out) := items_call wr p nl B st s (Some b) in
  exists e', be_encode_at wr p (length (bb_offsets buf)) e buf s = ((e', s'), out)
    /\ be_inv B nl e' (bs_past st') (bs_held st') (bs_rows st')
    /\ length (bs_held st') <= length (bs_held st) + length b /\ bytes_of (bs_held st') <= bytes_of (bs_held st) + bytes_of b.
Proof.
  intros HB HI HH HL HRows. assert (Hf : num_vals b < length (bb_offsets buf)).
  { destruct HH as (_ & -> & _). rewrite running_length. unfold num_vals. lia. }
  generalize dependent (length (bb_offsets buf)). intros fuel Hf.
  destruct st as [past R rows]. cbn [bs_past bs_held bs_rows items_call] in *.
  change (2 ^ 32 - 2)%N with 4294967294%N in HRows. unfold be_encode_at.
  pose proof (be_inv_len _ _ _ _ _ _ HI) as (HL0 & HN0 & HLa & HBy). rewrite HL0.
  destruct R as [|x R0].
  - change (0 <? num_vals (@nil row)) with false. cbn iota.
    pose proof (cut_offers B nl past HB (Datatypes.S (num_vals b)) fuel b [] e rows buf 0 s HI HH) as PF.
    change (2 ^ 32 - 2)%N with 4294967294%N in PF. cbn [app length Nat.add] in PF, HRows. change (bytes_of (@nil row)) with 0 in *.
    specialize (PF ltac:(lia) HRows (fun _ => eq_refl) ltac:(lia) Hf). change (num_vals (@nil row)) with 0 in PF.
    destruct (finish_items wr nl past rows s _) as [[st' s'] out]. exact PF.
  - assert (HE : ends_some (x :: R0)) by apply HI. set (R := x :: R0) in *. assert (HN : R <> []) by discriminate.
    change (match R with [] => ?a | _ => ?c end) with c. clearbody R. clear x R0.
    pose proof (nonempty_num R HE HN) as HP. destruct (Nat.ltb_spec 0 (num_vals R)); [|lia]. cbn zeta.
    assert (HM : be_min e = B) by apply HI. rewrite HM, HBy. pose proof HH as (HD & HO & HS).
    assert (HCB : (N.of_nat (cbytes (somes b)) <= u32_max)%N) by (change (cbytes (somes b)) with (bytes_of b); lia).
    assert (HAb : rows_allowed nl b) by (apply bb_holds_allowed in HH; exact HH).
    pose proof (room_ok p B nl R b buf HH HL) as RO. cbn zeta in RO.
    destruct (sub64 p B (N.of_nat (bytes_of R))) as [want|kk|]; cbn [bind pure] in RO |- *.
    2:{ destruct (bin_room p B R b) as [|k|]; [|destruct RO as (_ & _ & c & X & _); discriminate X|destruct RO as (_ & c & X & _); discriminate X].
        injection RO as ->. exists e. cbn [bs_past bs_held bs_rows]. split; [reflexivity|]. split; [exact HI|lia]. }
    2:{ destruct (bin_room p B R b) as [|k|]; [discriminate RO|destruct RO as (_ & _ & c & X & _); discriminate X|destruct RO as (_ & c & X & _); discriminate X]. }
    destruct (bin_room p B R b) as [|k|].
    + rewrite RO. cbn [pure]. exists e. cbn [bs_past bs_held bs_rows]. split; [reflexivity|]. split; [exact HI|lia].
    + destruct RO as (F1 & F2 & c & -> & C0 & C1). cbn [pure]. rewrite C0, C1.
      set (w := take_vals k b) in *. set (b' := drop_vals k b) in *.
      assert (HW : num_vals w = k) by (unfold w; rewrite num_take; lia).
      assert (HWE : ends_some w) by (apply take_ends; exact F1).
      assert (ER : b = w ++ b') by (symmetry; apply take_drop).
      assert (HBB : bytes_of b = bytes_of w + bytes_of b') by (rewrite ER at 1; apply bytes_app).
      assert (LBB : length b = length w + length b') by (rewrite ER at 1; apply app_length).
      assert (HWA : rows_allowed nl w) by (apply allowed_take; exact HAb).
      pose proof (bb_append_from_eq p (be_remaining e) buf nl [] w b') as PA. cbn [app] in PA. rewrite <- ER in PA.
      specialize (PA HH HN0 HWE). rewrite HD in PA. fold (cbytes (somes b)) in PA. specialize (PA HCB HLa).
      rewrite HBy in PA. fold (bytes_of w) in PA. specialize (PA ltac:(lia) ltac:(unfold u64_lim; lia)).
      cbn [somes length Nat.add] in PA. fold (num_vals w) in PA. rewrite HW in PA.
      destruct (be_inv_extend B nl e past R rows w HI HWA HWE) as (rb & EA & I'); [lia|]. rewrite EA, bind_ret in PA.
      rewrite bb_append_from_same in PA. apply uncaught_pair in PA. rewrite PA. cbn [fst snd pure].
      pose proof (be_inv_len _ _ _ _ _ _ I') as (HL1 & HN1 & HLa1 & HBy1). rewrite HBy1, bytes_app.
      cbn [be_min be_set_remaining]. rewrite HM.
      destruct (N.ltb_spec (N.of_nat (bytes_of R + bytes_of w)) B) as [X|_]; [lia|].
      assert (HNN : R ++ w <> []) by (destruct R; [congruence|discriminate]).
      pose proof (remaining_offers B nl (be_set_remaining e rb) past (R ++ w) rows s I' HNN) as PW.
      change (2 ^ 32)%N with 4294967296%N in PW. rewrite bytes_app, app_length in PW. specialize (PW ltac:(lia) ltac:(lia)).
      destruct (offer_items wr nl rows (held_item nl past (R ++ w)) s) as [[rows1 s1] out1]. destruct PW as (e1 & v & PW & I1). rewrite PW. cbn [fst snd].
      destruct out1 as [[[]|]|j|]; cbn [good told pure];
        [|exists e1; cbn [bs_past bs_held bs_rows]; split; [reflexivity|]; split; [exact I1|rewrite app_length, bytes_app; lia]..].
      pose proof (cut_offers B nl ((R ++ w) :: past) HB (Datatypes.S (num_vals b)) fuel b' w _ rows1 buf (if nl then length w else num_vals w) s1 (be_inv_clear _ _ _ _ _ _ I1)) as PF.
      change (2 ^ 32 - 2)%N with 4294967294%N in PF. rewrite <- ER in PF.
      assert (NB : num_vals b' = num_vals b - k) by apply num_drop.
      specialize (PF HH ltac:(lia) ltac:(lia) ltac:(intros ->; reflexivity) ltac:(lia) ltac:(lia)). rewrite HW in PF.
      destruct (finish_items wr nl ((R ++ w) :: past) rows1 s1 _) as [[st' s'] out].
      destruct PF as (e' & E & I2 & L1 & L2). exists e'. split; [exact E|]. split; [exact I2|lia].
    + destruct RO as (F1 & c & -> & C0 & C1). cbn [pure]. rewrite C0, C1.
      assert (ER : b = trim b ++ drop_vals (num_vals b) b) by (symmetry; apply take_drop).
      assert (ET : somes (trim b) = somes b) by (unfold trim; rewrite take_somes; apply firstn_all).
      assert (HTB : bytes_of (trim b) = bytes_of b) by (unfold bytes_of; rewrite ET; reflexivity).
      assert (HTA : rows_allowed nl (trim b)) by (apply allowed_take; exact HAb).
      pose proof (bb_append_from_eq p (be_remaining e) buf nl [] (trim b) (drop_vals (num_vals b) b)) as PA. cbn [app] in PA. rewrite <- ER in PA.
      specialize (PA HH HN0 (trim_ends b)). rewrite HD in PA. change (length (concat (somes b))) with (bytes_of b) in PA. specialize (PA HCB HLa).
      rewrite HBy in PA. fold (bytes_of (trim b)) in PA. rewrite HTB, ET in PA. specialize (PA ltac:(lia) ltac:(unfold u64_lim; lia)).
      cbn [somes length Nat.add] in PA. fold (num_vals b) in PA.
      destruct (be_inv_extend B nl e past R rows (trim b) HI HTA (trim_ends b)) as (rb & EA & I'); [lia|]. rewrite EA, bind_ret in PA.
      rewrite bb_append_from_same in PA. apply uncaught_pair in PA. rewrite PA. cbn [fst snd pure].
      pose proof (be_inv_len _ _ _ _ _ _ I') as (_ & _ & _ & HBy1). rewrite HBy1, bytes_app, HTB. cbn [be_min be_set_remaining]. rewrite HM.
      destruct (N.ltb_spec (N.of_nat (bytes_of R + bytes_of b)) B) as [_|X]; [|lia].
      eexists. cbn [bs_past bs_held bs_rows]. split; [reflexivity|]. split; [exact I'|].
      rewrite app_length, bytes_app, HTB. pose proof (trim_length b). lia.
Qed.

Lemma flush_items B nl e st s : 
  be_inv B nl e (bs_past st) (bs_held st) (bs_rows st) ->
  (N.of_nat (bytes_of (bs_held st)) <= u32_max)%N -> (N.of_nat (length (bs_held st)) <= 2 ^ 32)%N ->
  let '(st', s', out) := items_call wr p nl B st s None in
  exists e', be_flush_at wr p e s = ((e', s'), out) /\ be_inv B nl e' (bs_past st') (bs_held st') (bs_rows st') /\ bs_held st' = bs_held st.
Proof.
  intros HI HL HR. destruct st as [past R rows]. cbn [bs_past bs_held bs_rows items_call] in *. unfold be_flush_at.
  pose proof (be_inv_len _ _ _ _ _ _ HI) as (HL0 & _). rewrite HL0.
  destruct R as [|x R0].
  - cbn [held_item offer_items num_vals somes length Nat.ltb Nat.leb bs_past bs_held bs_rows]. exists e. auto.
  - set (R := x :: R0) in *. assert (HN : R <> []) by discriminate. clearbody R. clear x R0.
    pose proof (nonempty_num R ltac:(apply HI) HN) as HP. destruct (Nat.ltb_spec 0 (num_vals R)); [|lia]. cbn zeta.
    pose proof (remaining_offers B nl e past R rows s HI HN HL HR) as PW.
    destruct (offer_items wr nl rows (held_item nl past R) s) as [[rows1 s1] out1]. destruct PW as (e1 & v & PW & I1). rewrite PW. cbn [fst snd bs_past bs_held bs_rows].
    exists e1. split; [destruct out1 as [[[]|]|j|]; reflexivity|auto].
Qed.
End Does.

(** A call of the encoder and what it brings. *)
Definition brings_rows (nl : bool) (c : enc_call) (b : option (list row)) : Prop :=
  match c, b with
  | Encode buf, Some rows => bb_holds buf nl rows
  | Flush, None => True
  | _, _ => False
  end.

Lemma items_run {S} (wr : sink_fn S) p B nl calls cs : (0 < B <= u32_max)%N -> Forall2 (brings_rows nl) calls cs ->
  forall e st s, be_inv B nl e (bs_past st) (bs_held st) (bs_rows st) ->
  (N.of_nat (length (bs_held st) + length (calls_rows cs)) <= 2 ^ 32 - 2)%N -> (N.of_nat (bytes_of (bs_held st) + bytes_of (calls_rows cs)) < u32_max)%N ->
  let '(st', s', outs) := items_calls wr p nl B st s cs in
  exists e', enc_anyway wr p (e, s) calls = ((e', s'), outs) /\ be_inv B nl e' (bs_past st') (bs_held st') (bs_rows st')
    /\ length (bs_held st') <= length (bs_held st) + length (calls_rows cs) /\ bytes_of (bs_held st') <= bytes_of (bs_held st) + bytes_of (calls_rows cs).
Proof.
  intros HB HG. change (2 ^ 32 - 2)%N with 4294967294%N.
  induction HG as [|c b calls cs G HG IH]; intros e st s HI L LB; cbn [enc_anyway items_calls].
  - exists e. split; [reflexivity|]. split; [exact HI|lia].
  - unfold calls_rows in *. cbn [map concat] in *. fold (calls_rows cs) in *. rewrite app_length, bytes_app in *.
    destruct c as [buf|], b as [b|]; cbn [brings_rows] in G; try contradiction; cbn [enc_step fst snd call_rows] in *.
    + pose proof (encode_items wr p B nl e st buf b s HB HI G) as E. change (2 ^ 32 - 2)%N with 4294967294%N in E. specialize (E ltac:(lia) ltac:(lia)).
      destruct (items_call wr p nl B st s (Some b)) as [[st1 s1] out1]. destruct E as (e1 & E & I1 & L1 & L2). rewrite E. cbn [fst snd].
      specialize (IH e1 st1 s1 I1 ltac:(lia) ltac:(lia)).
      destruct (items_calls wr p nl B st1 s1 cs) as [[st2 s2] outs]. destruct IH as (e2 & -> & I2 & L3 & L4). exists e2. split; [reflexivity|]. split; [exact I2|lia].
    + change (bytes_of (@nil row)) with 0 in *. cbn [length] in *.
      pose proof (flush_items wr p B nl e st s HI) as E. change (2 ^ 32)%N with 4294967296%N in E. specialize (E ltac:(lia) ltac:(lia)).
      destruct (items_call wr p nl B st s None) as [[st1 s1] out1]. destruct E as (e1 & E & I1 & L1). rewrite E. cbn [fst snd].
      specialize (IH e1 st1 s1 I1). rewrite L1 in IH. specialize (IH ltac:(lia) ltac:(lia)).
      destruct (items_calls wr p nl B st1 s1 cs) as [[st2 s2] outs]. destruct IH as (e2 & -> & I2 & L3 & L4). exists e2. split; [reflexivity|]. split; [exact I2|lia].
Qed.

(** C106: every history of calls on every string column, with every sink, whatever
    fails or panics and is passed over: what is given to the sink, how every call
    ends, what is held back and counted.  Together all buffers have less than
    2^32-1 bytes and at most 2^32-2 rows. *)
Theorem C106_exact : forall (S : Type) (wr : sink_fn S) p B nullable calls cs s,
  (0 < B < 2 ^ 32)%N -> Forall2 (brings_rows nullable) calls cs ->
  (N.of_nat (length (calls_rows cs)) <= 2 ^ 32 - 2)%N -> (N.of_nat (bytes_of (calls_rows cs)) < 2 ^ 32 - 1)%N ->
  let r := enc_anyway wr p (be_new B nullable, s) calls in
  let '(st, s', outs) := items_calls wr p nullable B (mk_bs [] [] 0) s cs in
  snd (fst r) = s' /\ snd r = outs
  /\ bb_data (be_remaining (fst (fst r))) = concat (somes (bs_held st)) /\ bb_len (be_remaining (fst (fst r))) = num_vals (bs_held st)
  /\ be_rows (fst (fst r)) = bs_rows st.
Proof.
  intros S wr p B nl calls cs s HB HG HL HBy. change (2 ^ 32)%N with 4294967296%N in *. change (4294967296 - 1)%N with 4294967295%N in HBy.
  pose proof (items_run wr p B nl calls cs ltac:(unfold u32_max; lia) HG (be_new B nl) (mk_bs [] [] 0) s (be_inv_new B nl)) as X.
  cbn [bs_held length Nat.add] in X. change (bytes_of (@nil row)) with 0 in X. specialize (X HL ltac:(unfold u32_max; cbn [Nat.add]; lia)). cbn zeta.
  destruct (items_calls wr p nl B (mk_bs [] [] 0) s cs) as [[st s'] outs]. destruct X as (e' & -> & I & _).
  cbn [fst snd]. split; [reflexivity|]. split; [reflexivity|]. split; [apply I|]. split; [apply (be_inv_len _ _ _ _ _ _ I)|apply I].
Qed.
Print Assumptions C106_exact.

(** What counts is the rows of the buffers, not how the buffers came about. *)
Theorem C106_same : forall (S : Type) (wr : sink_fn S) p B nullable calls calls' cs s,
  (0 < B < 2 ^ 32)%N -> Forall2 (brings_rows nullable) calls cs -> Forall2 (brings_rows nullable) calls' cs ->
  (N.of_nat (length (calls_rows cs)) <= 2 ^ 32 - 2)%N -> (N.of_nat (bytes_of (calls_rows cs)) < 2 ^ 32 - 1)%N ->
  let r := enc_anyway wr p (be_new B nullable, s) calls in
  let r' := enc_anyway wr p (be_new B nullable, s) calls' in
  snd (fst r) = snd (fst r') /\ snd r = snd r' /\ bb_data (be_remaining (fst (fst r))) = bb_data (be_remaining (fst (fst r'))).
Proof.
  intros S wr p B nl calls calls' cs s HB H H' L1 L2. cbn zeta.
  pose proof (C106_exact S wr p B nl calls cs s HB H L1 L2) as X. pose proof (C106_exact S wr p B nl calls' cs s HB H' L1 L2) as Y. cbn zeta in X, Y.
  destruct (items_calls wr p nl B (mk_bs [] [] 0) s cs) as [[st s'] outs].
  destruct X as (-> & -> & -> & _), Y as (-> & -> & -> & _). auto.
Qed.
Print Assumptions C106_same.

(** Blocks of two bytes and a sink that refuses the first block.  Without overflow
    checks the rows held back for it are written with all rows of the next buffer;
    with them the column takes nothing more and only flushes write. *)
Definition refuses (n : nat) : sink_fn (list (N * list N)) := fun s r b => (s ++ [(r, b)], if length s =? n then Err else Ok tt).
Definition some_calls : list (option (list row)) :=
  [Some [Some [1]; None]; Some [Some [2; 3]; Some [4; 5]; Some [6]]; Some [Some [7; 8]; None; Some [9; 10]]; Some [Some [11]]; None; Some [None; Some [12]]; None]%N.
Definition made_calls : list enc_call := map (fun c => match c with Some b => Encode (items_of true b) | None => Flush end) some_calls.

Example C106_exact_example :
  let one := bin_block true [Some [1]; Some [2; 3]]%N [] in
  let r := enc_anyway (refuses 0) Release (be_new 2 true, []) made_calls in
  let d := enc_anyway (refuses 0) Debug (be_new 2 true, []) made_calls in
  let first := [Some [1]; Some [2; 3]; Some [7; 8]; None; Some [9; 10]]%N in
  items_calls (refuses 0) Release true 2 (mk_bs [] [] 0) [] some_calls
  = (mk_bs [[Some [11]; None; Some [12]]; first]%N [] 10,
     [(1, one); (6, bin_block true first []); (7, bin_block true [Some [11]] []); (9, bin_block true [Some [11]; Some [12]] [])]%N,
     [Ret (Ok tt); Ret Err; Ret (Ok tt); Ret (Ok tt); Ret (Ok tt); Ret (Ok tt); Ret (Ok tt)])
  /\ snd (fst r) = snd (fst (items_calls (refuses 0) Release true 2 (mk_bs [] [] 0) [] some_calls))
  /\ snd r = [Ret (Ok tt); Ret Err; Ret (Ok tt); Ret (Ok tt); Ret (Ok tt); Ret (Ok tt); Ret (Ok tt)]
  /\ snd (fst d) = [(1, one); (3, one); (5, one)]%N
  /\ snd d = [Ret (Ok tt); Ret Err; Panic POverflow; Panic POverflow; Ret (Ok tt); Panic POverflow; Ret (Ok tt)].
Proof. vm_compute. repeat split. Qed.

(** * Values are not repeated, changed or moved, whatever the sink refuses *)

(** Numbers of blocks with rows of their own: from [rows] counted to [rows']. *)
Fixpoint spaced (rows : N) (l : list (N * bin_item)) (rows' : N) : Prop :=
  match l with
  | [] => (rows <= rows')%N
  | (id, it) :: rest => exists from, (rows <= from)%N /\ id = (from + N.of_nat (it_count it) - 1)%N /\ spaced (from + N.of_nat (it_count it)) rest rows'
  end.

Lemma spaced_le l : forall a a' b b', (a' <= a)%N -> (b <= b')%N -> spaced a l b -> spaced a' l b'.
Proof.
  induction l as [|[id it] l IH]; intros a a' b b' HA HB; cbn [spaced]; [lia|]. intros (from & H1 & H2 & H3). exists from. split; [lia|]. split; [exact H2|].
  eapply IH; [|exact HB|exact H3]. lia.
Qed.

Lemma spaced_app l l' : forall a b c, spaced a l b -> spaced b l' c -> spaced a (l ++ l') c.
Proof.
  induction l as [|[id it] l IH]; intros a b c; cbn [spaced app].
  - intros H H'. eapply spaced_le; [exact H|apply N.le_refl|exact H'].
  - intros (from & H1 & H2 & H3) H'. exists from. split; [exact H1|]. split; [exact H2|]. eapply IH; eassumption.
Qed.

Definition got_values (l : list (N * bin_item)) : list (list N) := concat (map (fun a => somes (it_rows (snd a))) l).

Lemma got_app a b : got_values (a ++ b) = got_values a ++ got_values b.
Proof. unfold got_values. rewrite map_app, concat_app. reflexivity. Qed.

Lemma written_app nl a b : written nl (a ++ b) = written nl a ++ written nl b.
Proof. unfold written. apply map_app. Qed.

Lemma offered nl items : forall rows fates acc, exists l lost rows' fates' out,
  offer_items scripted nl rows items (fates, acc) = (rows', (fates', acc ++ written nl l), out)
  /\ items = map snd l ++ lost /\ spaced rows l rows' /\ (out = Ret (Ok tt) /\ lost = [] \/ good out = false /\ lost <> [])
  /\ Forall (fun a => num_vals (it_rows (snd a)) <= 128) l.
Proof.
  induction items as [|it items IH]; intros rows fates acc; cbn [offer_items].
  - exists [], [], rows, fates, (Ret (Ok tt)). cbn [written map app spaced]. rewrite app_nil_r. split; [reflexivity|]. split; [reflexivity|]. split; [lia|auto].
  - cbn zeta. destruct (Nat.ltb_spec 128 (num_vals (it_rows it))) as [H128|H128].
    { exists [], (it :: items), rows, fates, (Panic PAssert). cbn [written map app spaced good]. rewrite app_nil_r. split; [reflexivity|]. split; [reflexivity|]. split; [lia|split; [right; split; [reflexivity|discriminate]|constructor]]. }
    destruct (_ <=? _)%N.
    2:{ exists [], (it :: items), rows, fates, (Panic PExpect). cbn [written map app spaced good]. rewrite app_nil_r. split; [reflexivity|]. split; [reflexivity|]. split; [lia|split; [right; split; [reflexivity|discriminate]|constructor]]. }
    set (rows1 := (rows + N.of_nat (it_count it))%N).
    assert (GO : forall fates', exists l lost rows' fates2 out,
      offer_items scripted nl rows1 items (fates', acc ++ [((rows1 - 1)%N, bin_block nl (it_rows it) (it_extra it))]) = (rows', (fates2, acc ++ written nl l), out)
      /\ it :: items = map snd l ++ lost /\ spaced rows l rows' /\ (out = Ret (Ok tt) /\ lost = [] \/ good out = false /\ lost <> [])
      /\ Forall (fun a => num_vals (it_rows (snd a)) <= 128) l).
    { intros fates'. destruct (IH rows1 fates' (acc ++ [((rows1 - 1)%N, bin_block nl (it_rows it) (it_extra it))])) as (l & lost & rows' & fates2 & out & E & EI & SP & O & F).
      exists (((rows1 - 1)%N, it) :: l), lost, rows', fates2, out. split; [rewrite E, <- app_assoc; reflexivity|]. split; [cbn [map snd app]; rewrite <- EI; reflexivity|].
      split; [|split; [exact O|constructor; assumption]]. cbn [spaced]. exists rows. split; [lia|]. split; [reflexivity|exact SP]. }
    unfold scripted in GO |- * at 1. cbn [fst snd tl]. destruct fates as [|[|] fates]; [exact (GO [])|exact (GO fates)|].
    exists [], (it :: items), rows1, fates, (Ret Err). cbn [written map app spaced good]. rewrite app_nil_r. split; [reflexivity|]. split; [reflexivity|]. split; [subst rows1; lia|].
    split; [right; split; [reflexivity|discriminate]|constructor].
Qed.

(** The rows of a block: not empty, allowed, ending with an item, at most [n], with
    at most [m] bytes of data in the block. *)
Definition sound_item (nl : bool) (n m : nat) (it : bin_item) : Prop :=
  ends_some (it_rows it) /\ it_rows it <> [] /\ rows_allowed nl (it_rows it) /\ length (it_rows it) <= n /\ bytes_of (it_rows it) + length (it_extra it) <= m.

Definition sound_blocks (nl : bool) (n m : nat) (l : list (N * bin_item)) : Prop :=
  Forall (fun a => sound_item nl n m (snd a) /\ num_vals (it_rows (snd a)) <= 128) l.

Lemma sound_blocks_le nl l n m n' m' : n <= n' -> m <= m' -> sound_blocks nl n m l -> sound_blocks nl n' m' l.
Proof.
  intros HN HM HF. eapply Forall_impl; [|exact HF]. intros a ((A & B & C & D & E) & F). split; [|exact F]. split; [exact A|]. split; [exact B|]. split; [exact C|]. split; lia.
Qed.

Lemma sound_of nl n m (l : list (N * bin_item)) lost : Forall (sound_item nl n m) (map snd l ++ lost) -> Forall (fun a => num_vals (it_rows (snd a)) <= 128) l ->
  sound_blocks nl n m l.
Proof.
  intros H F. apply Forall_app in H. destruct H as [H _]. unfold sound_blocks. induction F as [|a l F1 F2 IH]; constructor; cbn [map] in H; apply Forall_cons_iff in H; destruct H as [H1 H2]; auto.
Qed.

Lemma cut_sound p nl B n m : forall f s pos rows, rows_allowed nl rows -> length rows <= n -> bytes_of rows <= m ->
  Forall (sound_item nl n m) (fst (bin_cut p nl f B s pos rows)).
Proof.
  induction f as [|f IH]; intros s pos rows HA HN HM; cbn [bin_cut]; [constructor|].
  destruct (fill B (somes rows)) as [q|] eqn:EF; [|constructor]. destruct (Nat.leb_spec q s) as [L|L]; [constructor|].
  destruct (fill_some _ _ _ EF) as (K1 & _ & _). cbn [fst]. constructor.
  - unfold sound_item. cbn [it_rows it_extra]. split; [apply take_ends; unfold num_vals; lia|].
    assert (K : num_vals (take_vals (q - s) rows) = q - s) by (rewrite num_take; unfold num_vals; lia).
    split; [intros X; rewrite X in K; cbn in K; lia|]. split; [apply allowed_take; exact HA|]. pose proof (take_length (q - s) rows). split; [lia|].
    unfold bytes_of in *. rewrite take_somes. rewrite <- app_length, <- concat_app, <- firstn_skipn_add. replace (q - s + s) with q by lia.
    rewrite <- (firstn_skipn q (somes rows)) in HM. rewrite concat_app, app_length in HM. lia.
  - apply IH; [apply allowed_drop; exact HA|pose proof (drop_length (q - s) rows); lia|pose proof (bytes_take_drop (q - s) rows); lia].
Qed.

Lemma held_sound nl past R n m : ends_some R -> rows_allowed nl R -> length R <= n -> bytes_of R <= m -> Forall (sound_item nl n m) (held_item nl past R).
Proof.
  intros HE HA HN HM. destruct (seen_spec nl past R HE) as (S1 & S2 & S3 & S4). destruct R as [|x R0] eqn:ER; [constructor|]. rewrite <- ER in *.
  assert (RN : R <> []) by (rewrite ER; discriminate). replace (held_item nl past R) with [mk_item (length (seen nl past R)) (seen nl past R) []] by (rewrite ER; reflexivity).
  constructor; [|constructor]. unfold sound_item. cbn [it_rows it_extra length]. split; [exact S2|].
  split; [intros X; rewrite X in S1; pose proof (nonempty_num R HE RN) as K; unfold num_vals in K; rewrite <- S1 in K; cbn in K; lia|].
  split; [exact (S4 HA)|]. split; [lia|]. unfold bytes_of in *. rewrite S1. lia.
Qed.

Lemma cut_held_le p nl B : forall f s pos rows items R, bin_cut p nl f B s pos rows = (items, Held R) -> bytes_of R <= bytes_of rows.
Proof.
  induction f as [|f IH]; intros s pos rows items R; cbn [bin_cut]; [discriminate|].
  destruct (fill B (somes rows)) as [q|]; [|intros H; injection H as _ <-; rewrite trim_bytes; lia]. destruct (q <=? s); [discriminate|].
  destruct (bin_cut p nl f B q _ _) as [its en] eqn:EC. cbn [fst snd]. intros H. injection H as _ ->. apply IH in EC. pose proof (bytes_take_drop (q - s) rows). lia.
Qed.

(** The rows [R] held back are as few. *)
Definition sound_held (nl : bool) (n m : nat) (R : list row) : Prop := rows_allowed nl R /\ length R <= n /\ bytes_of R <= m.

Lemma cut_has p nl B : forall f s pos rows, let c := bin_cut p nl f B s pos rows in
  exists more, concat (map item_values (fst c)) ++ match snd c with Held R => somes R | Stuck _ => more end = somes rows
    /\ match snd c with Held R => ends_some R | Stuck _ => True end.
Proof.
  induction f as [|f IH]; intros s pos rows; cbn [bin_cut]; cbn zeta.
  { exists (somes rows). cbn [fst snd map concat app]. auto. }
  destruct (fill B (somes rows)) as [q|].
  - destruct (q <=? s); [exists (somes rows); cbn [fst snd map concat app]; auto|].
    destruct (IH q (pos + length (take_vals (q - s) rows)) (drop_vals (q - s) rows)) as (more & E & HE). cbn [fst snd map concat]. exists more. split; [|exact HE].
    unfold item_values at 1. cbn [it_rows]. rewrite <- app_assoc, E, <- somes_app, take_drop. reflexivity.
  - exists []. cbn [fst snd map concat app]. split; [unfold trim; rewrite take_somes; apply firstn_all|apply trim_ends].
Qed.

Lemma got_map l : got_values l = concat (map item_values (map snd l)).
Proof. unfold got_values. rewrite map_map. reflexivity. Qed.

Lemma finished p nl B past rows fates acc f s pos rest :
  let '(st', s', out) := finish_items scripted nl past rows (fates, acc) (bin_cut p nl f B s pos rest) in
  ends_some (bs_held st') /\ exists l t more, snd s' = acc ++ written nl l /\ spaced rows l (bs_rows st')
    /\ got_values l ++ somes (bs_held st') = t /\ somes rest = t ++ more /\ (out = Ret (Ok tt) -> more = [])
    /\ (forall n m, rows_allowed nl rest -> length rest <= n -> bytes_of rest <= m -> sound_blocks nl n m l /\ sound_held nl n m (bs_held st')).
Proof.
  unfold finish_items. destruct (cut_has p nl B f s pos rest) as (more & E & HE).
  assert (NONE : forall n m, sound_held nl n m []) by (intros n m; split; [destruct nl; [left; reflexivity|right; constructor]|split; apply Nat.le_0_l]).
  assert (CS : forall n m, rows_allowed nl rest -> length rest <= n -> bytes_of rest <= m ->
    Forall (sound_item nl n m) (fst (bin_cut p nl f B s pos rest)) /\ match snd (bin_cut p nl f B s pos rest) with Held R => sound_held nl n m R | Stuck _ => True end).
  { intros n m HA HN HM. split; [apply cut_sound; assumption|]. destruct (bin_cut p nl f B s pos rest) as [its [R|k]] eqn:EC; [|exact I]. cbn [snd].
    pose proof (cut_held_le _ _ _ _ _ _ _ _ _ EC). apply bin_cut_held in EC. destruct EC as (_ & _ & EC & EA). split; [exact (EA HA)|]. split; lia. }
  set (c := bin_cut p nl f B s pos rest) in *. clearbody c. destruct c as [items en]. cbn [fst snd] in *.
  destruct (offered nl items rows fates acc) as (l & lost & rows' & fates' & out & -> & EI & SP & O & F128).
  rewrite EI, map_app, concat_app, <- got_map in E.
  destruct O as [[-> ->]|[G NE]].
  - cbn [good]. cbn [map concat] in E. rewrite app_nil_r in E. destruct en as [R|k]; cbn [bs_held bs_rows snd].
    + split; [exact HE|]. exists l, (got_values l ++ somes R), []. rewrite app_nil_r. split; [reflexivity|]. split; [exact SP|]. split; [reflexivity|]. split; [symmetry; exact E|]. split; [reflexivity|].
      intros n m HA HN HM. destruct (CS n m HA HN HM) as [C1 C2]. split; [apply (sound_of _ _ _ _ []); [rewrite <- EI|]; assumption|exact C2].
    + split; [left; reflexivity|]. exists l, (got_values l), more. cbn [somes]. rewrite app_nil_r. split; [reflexivity|]. split; [exact SP|]. split; [reflexivity|]. split; [symmetry; exact E|]. split; [discriminate|].
      intros n m HA HN HM. destruct (CS n m HA HN HM) as [C1 C2]. split; [apply (sound_of _ _ _ _ []); [rewrite <- EI|]; assumption|apply NONE].
  - rewrite G. cbn [bs_held bs_rows snd]. split; [left; reflexivity|].
    exists l, (got_values l), (concat (map item_values lost) ++ match en with Held R => somes R | Stuck _ => more end).
    cbn [somes]. rewrite app_nil_r, app_assoc. split; [reflexivity|]. split; [exact SP|]. split; [reflexivity|]. split; [symmetry; exact E|].
    split; [intros ->; discriminate G|]. intros n m HA HN HM. destruct (CS n m HA HN HM) as [C1 C2]. split; [apply (sound_of _ _ _ _ lost); [rewrite <- EI|]; assumption|apply NONE].
Qed.

Lemma ends_both (a b : list row) : ends_some a -> ends_some b -> ends_some (a ++ b).
Proof. intros HA HB. destruct b as [|y b]; [rewrite app_nil_r; exact HA|]. apply ends_app; [exact HB|discriminate]. Qed.

(** The block of what is held back is accepted or nothing is. *)
Lemma held_offered nl past R rows fates acc : ends_some R ->
  exists l rows' fates' out,
  offer_items scripted nl rows (held_item nl past R) (fates, acc) = (rows', (fates', acc ++ written nl l), out)
  /\ spaced rows l rows' /\ (out = Ret (Ok tt) /\ got_values l = somes R \/ good out = false /\ l = [])
  /\ (forall n m, sound_held nl n m R -> sound_blocks nl n m l)
  /\ (R <> [] -> out = Ret (Ok tt) -> exists a, l = [a]) /\ length l <= 1.
Proof.
  intros HE. destruct (offered nl (held_item nl past R) rows fates acc) as (l & lost & rows' & fates' & out & E & EI & SP & O & F128).
  exists l, rows', fates', out. split; [exact E|]. split; [exact SP|].
  assert (SO : forall n m, sound_held nl n m R -> sound_blocks nl n m l).
  { intros n m (H1 & H2 & H3). apply (sound_of _ _ _ _ lost); [rewrite <- EI; apply held_sound; assumption|exact F128]. }
  apply and_comm, and_assoc. split; [exact SO|]. apply and_comm. clear SO F128. destruct R as [|x R0].
  - cbn [held_item] in EI. destruct l; [|discriminate EI]. cbn [map app] in EI. subst lost. destruct O as [[-> _]|[_ NE]]; [|congruence].
    split; [left; auto|]. split; [congruence|cbn; lia].
  - set (R := x :: R0) in *. change (held_item nl past R) with [mk_item (length (seen nl past R)) (seen nl past R) []] in *.
    destruct (seen_spec nl past R HE) as (S1 & _). destruct O as [[-> ->]|[G NE]].
    + rewrite app_nil_r in EI. destruct l as [|[id it] [|]]; try discriminate EI. cbn [map snd] in EI. injection EI as <-.
      split; [left; split; [reflexivity|]|split; [eauto|cbn; lia]]. unfold got_values. cbn [map snd concat it_rows]. rewrite app_nil_r. exact S1.
    + destruct l as [|a l].
      * split; [right; auto|]. split; [intros _ ->; discriminate G|cbn; lia].
      * exfalso. cbn [map app] in EI. injection EI as _ EI. destruct l; [|discriminate EI]. cbn [map app] in EI. congruence.
Qed.

Lemma call_got p nl B st fates acc b : ends_some (bs_held st) ->
  let '(st', s', out) := items_call scripted p nl B st (fates, acc) (Some b) in
  ends_some (bs_held st') /\ exists l t more, snd s' = acc ++ written nl l /\ spaced (bs_rows st) l (bs_rows st')
    /\ got_values l ++ somes (bs_held st') = somes (bs_held st) ++ t /\ somes b = t ++ more /\ (out = Ret (Ok tt) -> more = [])
    /\ (forall n m, rows_allowed nl (bs_held st) -> rows_allowed nl b -> length (bs_held st) + length b <= n -> bytes_of (bs_held st) + bytes_of b <= m ->
          sound_blocks nl n m l /\ sound_held nl n m (bs_held st')).
Proof.
  intros HE. destruct st as [past R rows]. cbn [bs_past bs_held bs_rows items_call] in *. destruct R as [|x R0].
  { pose proof (finished p nl B past rows fates acc (Datatypes.S (num_vals b)) 0 0 b) as F. destruct (finish_items _ _ _ _ _ _) as [[st' s'] out].
    destruct F as (HE2 & l & t & more & F1 & F2 & F3 & F4 & F5 & F6). split; [exact HE2|]. exists l, t, more. split; [exact F1|]. split; [exact F2|]. split; [exact F3|].
    split; [exact F4|]. split; [exact F5|]. intros n m _ HA HN HM. apply F6; [exact HA|cbn [length] in HN; lia|change (bytes_of (@nil row)) with 0 in HM; lia]. }
  set (R := x :: R0) in *. clearbody R. clear x R0. unfold bin_room. 
  assert (KB : forall k, fill (B - N.of_nat (bytes_of R)) (somes b) = Some k -> k <= num_vals b) by (intros k EF; apply fill_some in EF; apply EF).
  assert (TK : forall k, k <= num_vals b ->
    let '(st', s', out) := (let held' := R ++ take_vals k b in
              let '(rows, s, out) := offer_items scripted nl rows (held_item nl past held') (fates, acc) in
              if good out then finish_items scripted nl (held' :: past) rows s (bin_cut p nl (Datatypes.S (num_vals b)) B k (length (take_vals k b)) (drop_vals k b))
              else (mk_bs past held' rows, s, out)) in
    ends_some (bs_held st') /\ exists l t more, snd s' = acc ++ written nl l /\ spaced rows l (bs_rows st')
    /\ got_values l ++ somes (bs_held st') = somes R ++ t /\ somes b = t ++ more /\ (out = Ret (Ok tt) -> more = [])
    /\ (forall n m, rows_allowed nl R -> rows_allowed nl b -> length R + length b <= n -> bytes_of R + bytes_of b <= m ->
          sound_blocks nl n m l /\ sound_held nl n m (bs_held st'))).
  { intros k Hk. cbn zeta. assert (HE' : ends_some (R ++ take_vals k b)) by (apply ends_both; [exact HE|apply take_ends; exact Hk]).
    assert (SB : somes b = somes (take_vals k b) ++ somes (drop_vals k b)) by (rewrite <- somes_app, take_drop; reflexivity).
    destruct (held_offered nl past (R ++ take_vals k b) rows fates acc HE') as (l & rows' & fates' & out & -> & SP & O & SO & _).
    pose proof (drop_length k b) as DL. pose proof (bytes_take_drop k b) as TD. pose proof (take_length k b) as TL.
    assert (SH : forall n m, rows_allowed nl R -> rows_allowed nl b -> length R + length b <= n -> bytes_of R + bytes_of b <= m -> sound_held nl n m (R ++ take_vals k b)).
    { intros n m H1 H2 H3 H4. split; [apply allowed_app; split; [exact H1|apply allowed_take; exact H2]|]. rewrite app_length, bytes_app. split; lia. }
    destruct O as [[-> GV]|[G ->]].
    - cbn [good]. pose proof (finished p nl B ((R ++ take_vals k b) :: past) rows' fates' (acc ++ written nl l) (Datatypes.S (num_vals b)) k (length (take_vals k b)) (drop_vals k b)) as F.
      destruct (finish_items scripted nl _ rows' _ _) as [[st' s'] out]. destruct F as (HE2 & l2 & t & more & F1 & F2 & F3 & F4 & F5 & F6). split; [exact HE2|].
      exists (l ++ l2), (somes (take_vals k b) ++ t), more. split; [rewrite F1, written_app, app_assoc; reflexivity|]. split; [eapply spaced_app; eassumption|].
      split; [rewrite got_app, <- app_assoc, F3, GV, somes_app, <- app_assoc; reflexivity|]. split; [rewrite SB, F4, app_assoc; reflexivity|split; [exact F5|]].
      intros n m H1 H2 H3 H4. destruct (F6 n m) as [Z1 Z2]; [apply allowed_drop; exact H2|lia|lia|]. split; [|exact Z2]. apply Forall_app. split; [apply SO, SH; assumption|exact Z1].
    - rewrite G. cbn [bs_held bs_rows snd]. split; [exact HE'|]. exists [], (somes (take_vals k b)), (somes (drop_vals k b)). rewrite somes_app.
      split; [reflexivity|]. split; [exact SP|]. split; [reflexivity|]. split; [exact SB|]. split; [intros ->; discriminate G|].
      intros n m H1 H2 H3 H4. split; [constructor|apply SH; assumption]. }
  destruct (_ <? _)%N.
  - destruct p; [|exact (TK _ (le_n _))]. cbn [bs_held bs_rows snd]. split; [exact HE|]. exists [], [], (somes b). cbn [written map spaced]. rewrite !app_nil_r.
    split; [reflexivity|]. split; [lia|]. split; [reflexivity|]. split; [reflexivity|]. split; [discriminate|].
    intros n m H1 H2 H3 H4. split; [constructor|]. split; [exact H1|]. split; lia.
  - destruct (fill _ _) as [k|]; [exact (TK k (KB k eq_refl))|]. cbn [bs_held bs_rows snd]. split; [apply ends_both; [exact HE|apply trim_ends]|].
    exists [], (somes b), []. cbn [written map spaced]. rewrite !app_nil_r, somes_app. split; [reflexivity|]. split; [lia|]. split; [|split; [reflexivity|split; [auto|]]].
    + cbn [got_values map concat app]. f_equal. unfold trim. rewrite take_somes. apply firstn_all.
    + intros n m H1 H2 H3 H4. split; [constructor|]. split; [apply allowed_app; split; [exact H1|apply allowed_take; exact H2]|]. rewrite app_length, bytes_app, trim_bytes.
      pose proof (take_length (num_vals b) b). unfold trim. split; lia.
Qed.

(** The values taken by every call: a first part, and all if the call returns
    without an error. *)
Inductive took : list (list row) -> list (outcome (result unit)) -> list (list N) -> Prop :=
| took_nil : took [] [] []
| took_cons b out t more bs outs ts : somes b = t ++ more -> (out = Ret (Ok tt) -> more = []) -> took bs outs ts -> took (b :: bs) (out :: outs) (t ++ ts).

Lemma calls_got p nl B bs : forall st fates acc, ends_some (bs_held st) ->
  let '(st', s', outs) := items_calls scripted p nl B st (fates, acc) (map Some bs) in
  ends_some (bs_held st') /\ exists l ts, snd s' = acc ++ written nl l /\ spaced (bs_rows st) l (bs_rows st')
    /\ got_values l ++ somes (bs_held st') = somes (bs_held st) ++ ts /\ took bs outs ts
    /\ (forall n m, rows_allowed nl (bs_held st) -> Forall (rows_allowed nl) bs -> length (bs_held st) + length (concat bs) <= n -> bytes_of (bs_held st) + bytes_of (concat bs) <= m ->
          sound_blocks nl n m l /\ sound_held nl n m (bs_held st')).
Proof.
  induction bs as [|b bs IH]; intros st fates acc HE; cbn [map items_calls].
  - split; [exact HE|]. exists [], []. cbn [written map spaced snd got_values concat app]. rewrite !app_nil_r. split; [reflexivity|]. split; [lia|]. split; [reflexivity|]. split; [constructor|].
    intros n m H1 _ H3 H4. split; [constructor|]. split; [exact H1|]. split; lia.
  - pose proof (call_got p nl B st fates acc b HE) as C.
    destruct (items_call scripted p nl B st (fates, acc) (Some b)) as [[st1 [fates1 acc1]] out]. cbn [snd] in C. destruct C as (HE1 & l & t & more & -> & SP & V & SB & O & K).
    specialize (IH st1 fates1 (acc ++ written nl l) HE1).
    destruct (items_calls scripted p nl B st1 _ (map Some bs)) as [[st2 s2] outs]. destruct IH as (HE2 & l2 & ts & E2 & SP2 & V2 & T2 & K2). split; [exact HE2|].
    exists (l ++ l2), (t ++ ts). split; [rewrite E2, written_app, app_assoc; reflexivity|]. split; [eapply spaced_app; eassumption|].
    split; [rewrite got_app, <- app_assoc, V2, app_assoc, V, app_assoc; reflexivity|]. split; [econstructor; eassumption|].
    intros n m H1 H2 H3 H4. cbn [concat] in H3, H4. rewrite app_length in H3. rewrite bytes_app in H4. apply Forall_cons_iff in H2. destruct H2 as [H2 H5].
    destruct (K _ _ H1 H2 (le_n _) (le_n _)) as [Z1 (Y1 & Y2 & Y3)]. destruct (K2 n m Y1 H5) as [Z2 Z3]; [lia|lia|]. split; [|exact Z3].
    apply Forall_app. split; [eapply sound_blocks_le; [| |exact Z1]; lia|exact Z2].
Qed.

(** C106, for a sink that accepts and refuses blocks as planned: the values of the
    accepted blocks and the values held back are, in order, a first part of those of
    every call; of a call that returns without an error, all.  So what fails or
    panics may lose values, but none is repeated, changed or moved.  Every block is
    numbered by rows of its own.  A flush adds at most one block, exactly with what
    is held back, and does so if it returns without an error. *)
Theorem C106_values : forall p B nullable (bufs : list bin_buf) (bs : list (list row)) fates,
  (0 < B < 2 ^ 32)%N -> Forall2 (fun buf b => bb_holds buf nullable b) bufs bs ->
  (N.of_nat (length (concat bs)) <= 2 ^ 32 - 2)%N -> (N.of_nat (bytes_of (concat bs)) < 2 ^ 32 - 1)%N ->
  let r := enc_anyway scripted p (be_new B nullable, (fates, [])) (map Encode bufs) in
  let f := enc_step scripted p (fst r) Flush in
  exists accepted held last,
    snd (snd (fst r)) = written nullable accepted
    /\ spaced 0 accepted (be_rows (fst (fst r)))
    /\ bb_data (be_remaining (fst (fst r))) = concat held /\ bb_offsets (be_remaining (fst (fst r))) = running_offsets 0 held
    /\ took bs (snd r) (concat (map (fun a => somes (it_rows (snd a))) accepted) ++ held)
    /\ snd (snd (fst f)) = written nullable (accepted ++ last)
    /\ spaced 0 (accepted ++ last) (be_rows (fst (fst f)))
    /\ (snd f = Ret (Ok tt) /\ concat (map (fun a => somes (it_rows (snd a))) last) = held \/ snd f <> Ret (Ok tt) /\ last = []).
Proof.
  intros p B nl bufs bs fates HB HH HL HBy.
  assert (HG : Forall2 (brings_rows nl) (map Encode bufs) (map Some bs)) by (clear -HH; induction HH as [|buf b bufs bs H HH IH]; cbn [map]; constructor; [exact H|exact IH]).
  assert (CR : calls_rows (map Some bs) = concat bs) by (unfold calls_rows; rewrite map_map; cbn [call_rows]; rewrite map_id; reflexivity).
  change (2 ^ 32)%N with 4294967296%N in *. change (4294967296 - 1)%N with 4294967295%N in HBy.
  pose proof (items_run scripted p B nl _ _ ltac:(unfold u32_max; lia) HG (be_new B nl) (mk_bs [] [] 0) (fates, []) (be_inv_new B nl)) as X.
  cbn [bs_held length Nat.add] in X. rewrite CR in X. change (bytes_of (@nil row)) with 0 in X. specialize (X HL ltac:(unfold u32_max; cbn [Nat.add]; lia)).
  pose proof (calls_got p nl B bs (mk_bs [] [] 0) fates [] (or_introl eq_refl)) as Y. cbn zeta.
  destruct (items_calls scripted p nl B (mk_bs [] [] 0) (fates, []) (map Some bs)) as [[st s'] outs].
  destruct X as (e' & -> & I & LH & LB). destruct Y as (HE & l & ts & E & SP & V & T & _). cbn [bs_rows bs_held somes app fst snd enc_step] in *.
  destruct s' as [fates' acc]. cbn [fst snd] in E |- *. subst acc.
  pose proof (flush_items scripted p B nl e' st (fates', written nl l) I) as F. change (2 ^ 32)%N with 4294967296%N in F. cbn [Nat.add] in LB. specialize (F ltac:(unfold u32_max; lia) ltac:(lia)).
  cbn [items_call] in F. destruct (held_offered nl (bs_past st) (bs_held st) (bs_rows st) fates' (written nl l) HE) as (last & rows' & f2 & out & EO & SP2 & O & _). rewrite EO in F.
  destruct F as (e2 & -> & I2 & _). cbn [fst snd bs_rows bs_past bs_held] in *.
  assert (R1 : be_rows e' = bs_rows st) by apply I. assert (R2 : be_rows e2 = rows') by apply I2.
  exists l, (somes (bs_held st)), last. split; [reflexivity|]. split; [rewrite R1; exact SP|]. split; [apply I|]. split; [apply I|].
  fold (got_values l) (got_values last). rewrite V. split; [exact T|]. split; [rewrite written_app; reflexivity|]. split; [rewrite R2; eapply spaced_app; eassumption|].
  destruct O as [[-> G]|[G ->]]; [left; auto|right; split; [intros ->; discriminate G|reflexivity]].
Qed.
Print Assumptions C106_values.

(** The first block is accepted, the second refused: the item of the second and the
    rest of its buffer are lost, and what comes later is written. *)
Example C106_values_example :
  let r := enc_anyway scripted Release (be_new 2 false, ([true; false], [])) (map (fun b => Encode (items_of false (map Some b))) [[[1; 2]; [3]; [4; 5; 6]; [7]]; [[8]]]%N) in
  snd r = [Ret Err; Ret (Ok tt)]
  /\ snd (snd (fst r)) = [(0%N, bin_block false [Some [1; 2]%N] [])]
  /\ bb_data (be_remaining (fst (fst r))) = [8%N]
  /\ snd (snd (fst (enc_step scripted Release (fst r) Flush))) = [(0%N, bin_block false [Some [1; 2]%N] []); (2%N, bin_block false [Some [8%N]] [])].
Proof. vm_compute. repeat split. Qed.
