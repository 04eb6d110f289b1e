(** Property C55 for every history of a binary column (raw/binary_enc.rs):
    encode and flush calls in any order, of which any may fail. *)
From Verif Require Import Base BaseProofs Spec SpecRows SpecBin SpecFail Varint VarintProofs Buffers Observe BitmapProofs BuffersProofs
  Rle RleProofs Offsets OffsetsProofs Sink BinEnc ObserveEnc ReadBlock ReadBinBlock RowsProofs BlockProofs PrimRunProofs
  BinBlockProofs BinEncProofs BinRunProofs PropsBin.
Open Scope nat_scope.

(** A sink that accepts or rejects blocks as planned, and all after that. *)
Definition scripted : sink_fn (list bool * list (N * list N)) := fun s id b =>
  match fst s with
  | false :: fates => ((fates, snd s), Err)
  | fates => ((tl fates, snd s ++ [(id, b)]), Ok tt)
  end.

(** Calls of [encode] ([Some]) and [flush] ([None]) that go on after a failed one. *)
Fixpoint be_calls {S} (wr : sink_fn S) (p : profile) (e : bin_enc) (calls : list (option bin_buf)) (s : S)
  : outcome (bin_enc * S * list (result unit)) :=
  match calls with
  | [] => Ret (e, s, [])
  | c :: rest =>
      let* r := match c with Some b => be_encode wr p (length (bb_offsets b)) e b s | None => be_flush wr p e s end in
      let '(e, s, res) := r in
      let* r := be_calls wr p e rest s in
      let '(e, s, ress) := r in Ret (e, s, res :: ress)
  end.

Definition verdict (ok : bool) : result unit := if ok then Ok tt else Err.

(** The rows of the buffers of some calls. *)
Definition call_rows {T} (c : option (list (option T))) : list (option T) := match c with Some b => b | None => [] end.
Definition calls_rows {T} (calls : list (option (list (option T)))) : list (option T) := concat (map call_rows calls).

Section Fail.
Variable p : profile.

Definition written (nl : bool) (accepted : list (N * bin_item)) : list (N * list N) :=
  map (fun a => (fst a, bin_block nl (it_rows (snd a)) (it_extra (snd a)))) accepted.

Lemma bemits_scripted nl items : forall rows fates acc,
  match offer it_count bin_fine rows fates items with
  | Some (a, rows', fates', ok) =>
      bemits scripted nl rows items (fates, acc) = Ret (rows', (fates', acc ++ written nl a), verdict ok)
  | None => is_panic (bemits scripted nl rows items (fates, acc))
  end.
Proof.
  induction items as [|it items IH]; intros rows fates acc; cbn [offer bemits].
  - cbn [written map]. rewrite app_nil_r. reflexivity.
  - unfold bin_fine at 1. destruct (Nat.ltb_spec 128 (num_vals (it_rows it))) as [L|L], (Nat.leb_spec (num_vals (it_rows it)) 128); try lia; cbn [andb].
    { eexists; reflexivity. }
    change (2 ^ 32)%N with 4294967296%N. unfold be_add_rows, u32_max.
    destruct (N.leb_spec (N.of_nat (it_count it)) 4294967295) as [L1|L1]; cbn [bind].
    2:{ destruct (N.ltb_spec (rows + N.of_nat (it_count it)) 4294967296); [lia|]. eexists; reflexivity. }
    destruct (N.leb_spec (rows + N.of_nat (it_count it)) 4294967295) as [L2|L2]; cbn [bind];
      destruct (N.ltb_spec (rows + N.of_nat (it_count it)) 4294967296) as [L3|L3]; try lia; [|eexists; reflexivity].
    destruct fates as [|[|] fates]; cbn [scripted fst snd tl].
    + specialize (IH (rows + N.of_nat (it_count it))%N [] (acc ++ [(rows + N.of_nat (it_count it) - 1, bin_block nl (it_rows it) (it_extra it))%N])).
      destruct (offer _ _ _ [] items) as [[[[a rows'] fates'] ok]|]; [|exact IH]. rewrite IH. cbn [written map fst snd]. rewrite <- app_assoc. reflexivity.
    + specialize (IH (rows + N.of_nat (it_count it))%N fates (acc ++ [(rows + N.of_nat (it_count it) - 1, bin_block nl (it_rows it) (it_extra it))%N])).
      destruct (offer _ _ _ fates items) as [[[[a rows'] fates'] ok]|]; [|exact IH]. rewrite IH. cbn [written map fst snd]. rewrite <- app_assoc. reflexivity.
    + cbn [written map verdict]. rewrite app_nil_r. reflexivity.
Qed.

Lemma offer_in {T} count fine (items : list T) : forall rows fates a rows' fates' ok,
  offer count fine rows fates items = Some (a, rows', fates', ok) -> Forall (fun x => In (snd x) items /\ fine (snd x) = true) a.
Proof.
  induction items as [|it items IH]; intros rows fates a rows' fates' ok H; cbn [offer] in H.
  - injection H as <- _ _ _. constructor.
  - destruct (fine it) eqn:EF; cbn [andb] in H; [|discriminate]. destruct (_ <? _)%N; [|discriminate].
    assert (G : forall f, match offer count fine (rows + N.of_nat (count it))%N f items with
       | Some (a, r, f, o) => Some ((rows + N.of_nat (count it) - 1, it)%N :: a, r, f, o) | None => None end = Some (a, rows', fates', ok) ->
       Forall (fun x => In (snd x) (it :: items) /\ fine (snd x) = true) a).
    { intros f G. destruct (offer _ _ _ f items) as [[[[a1 r1] f1] o1]|] eqn:EO; [|discriminate]. injection G as <- _ _ _.
      constructor; [cbn; auto|]. eapply Forall_impl; [|eapply IH; exact EO]. cbn. tauto. }
    destruct fates as [|[|] fates]; cbn [tl] in H; [apply (G _ H)|apply (G _ H)|]. injection H as <- _ _ _. constructor.
Qed.

(** Blocks that have a layout. *)
Definition sound (len bytes : nat) (accepted : list (N * bin_item)) : Prop :=
  Forall (fun a => 1 <= num_vals (it_rows (snd a)) <= 128 /\ length (it_rows (snd a)) <= len
                   /\ bytes_of (it_rows (snd a)) + length (it_extra (snd a)) <= bytes) accepted.

Lemma offer_sound items len bytes rows fates a rows' fates' ok : bounded items len bytes ->
  offer it_count bin_fine rows fates items = Some (a, rows', fates', ok) -> sound len bytes a.
Proof.
  intros HB H. apply offer_in in H. unfold bounded in HB. rewrite Forall_forall in HB. eapply Forall_impl; [|exact H]. cbn.
  intros x (HI & HF). destruct (HB _ HI) as (A & B & C). apply Nat.leb_le in HF. lia.
Qed.

Lemma sound_le len bytes len' bytes' a : sound len bytes a -> len <= len' -> bytes <= bytes' -> sound len' bytes' a.
Proof. intros H L1 L2. eapply Forall_impl; [|exact H]. cbn. intros x (A & B & C). repeat split; lia. Qed.

(** What a call does, as [bin_call] says. *)
Definition call_as (B : N) (nl : bool) (len bytes : nat) (acc : list (N * list N)) (r : call_result (list N) bin_item)
  (run : outcome (bin_enc * (list bool * list (N * list N)) * result unit)) : Prop :=
  match r with
  | None => is_panic run
  | Some (a, st, ok) => exists e', run = Ret (e', (cl_fates st, acc ++ written nl a), verdict ok)
      /\ be_inv B nl e' (cl_past st) (cl_held st) (cl_rows st) /\ sound len bytes a
      /\ length (cl_held st) <= len /\ bytes_of (cl_held st) <= bytes
  end.

Lemma held_bytes nl B f : forall s pos rows items R, bin_cut p nl f B s pos rows = (items, Held R) -> bytes_of R <= bytes_of rows.
Proof.
  induction f as [|f IH]; intros s pos rows items R H; cbn [bin_cut] in H; [discriminate|].
  destruct (fill B (somes rows)) as [q|] eqn:EF.
  - destruct (q <=? s); [discriminate|]. cbn zeta in H. destruct (bin_cut p nl f B q _ _) as [its en] eqn:EC. cbn [fst snd] in H. injection H as _ ->.
    apply IH in EC. pose proof (bytes_take_drop (q - s) rows). lia.
  - injection H as _ <-. rewrite trim_bytes. lia.
Qed.

Lemma finish_ok B nl past fuel before rest e rows fates acc buf vp len bytes : (0 < B <= u32_max)%N ->
  be_inv B nl e past [] rows -> bb_holds buf nl (before ++ rest) ->
  (N.of_nat (bytes_of (before ++ rest)) <= u32_max)%N -> (N.of_nat (length before + length rest) <= 2 ^ 32 - 2)%N ->
  (nl = true -> vp = length before) -> num_vals rest < fuel -> length rest <= len -> bytes_of rest <= bytes ->
  forall f, num_vals rest < f ->
  call_as B nl len bytes acc (bin_finish p nl B past rows fates f (num_vals before) (length before) rest)
    (be_loop scripted p fuel e buf (num_vals before) vp (fates, acc)).
Proof.
  intros HB HI HH HL HR HV Hf LL LB f Hff.
  pose proof (be_loop_ok scripted p B nl past HB f fuel rest before e rows buf vp (fates, acc) HI HH HL HR HV Hff Hf) as PL.
  cbn zeta in PL. unfold bin_finish. pose proof (bin_cut_bounded p nl B ltac:(lia) f (num_vals before) (length before) rest) as BC.
  pose proof (bemits_scripted nl (fst (bin_cut p nl f B (num_vals before) (length before) rest)) rows fates acc) as BS.
  unfold outcome_as in PL. unfold sink_fn in *.
  destruct (bin_cut p nl f B (num_vals before) (length before) rest) as [its en] eqn:EC. cbn [fst snd] in *.
  destruct (offer it_count bin_fine rows fates its) as [[[[a rows'] fates'] ok]|] eqn:EO.
  - pose proof (offer_sound _ _ _ _ _ _ _ _ _ BC EO) as HS. rewrite BS in PL. destruct ok; cbn [verdict] in PL.
    + destruct en as [R'|k].
      * destruct PL as (e' & -> & I'). cbn [call_as cl_fates cl_past cl_held cl_rows verdict]. exists e'. split; [reflexivity|]. split; [exact I'|].
        split; [eapply sound_le; eauto|]. pose proof (held_bytes _ _ _ _ _ _ _ _ EC). apply bin_cut_held in EC. lia.
      * cbn [call_as]. rewrite PL. eexists; reflexivity.
    + destruct PL as (e' & -> & I'). cbn [call_as cl_fates cl_past cl_held cl_rows verdict]. exists e'. split; [reflexivity|]. split; [exact I'|].
      split; [eapply sound_le; eauto|]. cbn. lia.
  - cbn [call_as]. destruct BS as [k BS]. rewrite BS in PL. rewrite PL. eexists; reflexivity.
Qed.

(** The chunk a call takes to complete the rows held back. *)
Lemma room_ok B nl R b buf : bb_holds buf nl b -> (N.of_nat (bytes_of R + bytes_of b) < u32_max)%N ->
  let run := let* want := sub64 p B (N.of_nat (bytes_of R)) in be_chunk p buf 0 want in
  match bin_room p B R b with
  | Underflow => run = Panic POverflow
  | Takes k => k <= num_vals b /\ (B <= N.of_nat (bytes_of R + bytes_of (take_vals k b)))%N
      /\ exists c, run = Ret c /\ bc_start c = 0 /\ bc_end c = k
  | Short => (N.of_nat (bytes_of R + bytes_of b) < B)%N /\ exists c, run = Ret c /\ bc_start c = 0 /\ bc_end c = num_vals b
  end.
Proof.
  intros (HD & HO & HS) HL run. unfold bin_room. subst run.
  assert (HCB : (N.of_nat (cbytes (somes b)) <= u32_max)%N) by (change (cbytes (somes b)) with (bytes_of b); lia).
  destruct (N.ltb_spec B (N.of_nat (bytes_of R))) as [O|O].
  - unfold sub64, usub. destruct (N.leb_spec (N.of_nat (bytes_of R)) B); [lia|]. destruct p; [reflexivity|]. cbn [bind].
    rewrite (be_chunk_ok Release buf (somes b) 0 _ HO ltac:(lia) HCB). cbn [skipn firstn]. cbn zeta.
    assert (EF : fill (B + u64_lim - N.of_nat (bytes_of R)) (somes b) = None).
    { apply fill_none_iff. change (cbytes (somes b)) with (bytes_of b). unfold u64_lim, u32_max in *. lia. }
    rewrite EF. split; [lia|]. split; [lia|]. eexists; split; [reflexivity|]. split; reflexivity.
  - rewrite sub64_ok by lia. rewrite bind_ret. rewrite (be_chunk_ok p buf (somes b) 0 _ HO ltac:(lia) HCB). cbn [skipn firstn]. cbn zeta.
    destruct (fill (B - N.of_nat (bytes_of R)) (somes b)) as [k|] eqn:EF.
    + pose proof (fill_some _ _ _ EF) as (F1 & F2 & _). split; [exact F1|]. split.
      * unfold bytes_of at 2. rewrite take_somes. unfold cbytes in F2. lia.
      * rewrite sub64_ok by lia. cbn [bind]. eexists; split; [reflexivity|]. split; reflexivity.
    + apply fill_none in EF. change (cbytes (somes b)) with (bytes_of b) in EF. split; [lia|].
      eexists; split; [reflexivity|]. split; reflexivity.
Qed.

Lemma encode_call B nl past e R rows fates acc buf b : (0 < B <= u32_max)%N ->
  be_inv B nl e past R rows -> bb_holds buf nl b ->
  (N.of_nat (bytes_of R + bytes_of b) < u32_max)%N -> (N.of_nat (length R + length b) <= 2 ^ 32 - 2)%N ->
  call_as B nl (length R + length b) (bytes_of R + bytes_of b) acc (bin_call p nl B (mk_col past R rows fates) (Some b))
    (be_encode scripted p (length (bb_offsets buf)) e buf (fates, acc)).
Proof.
  intros HB HI HH HL HRows. assert (Hf : num_vals b < length (bb_offsets buf)).
  { destruct HH as (_ & -> & _). rewrite running_length. unfold num_vals. lia. }
  generalize dependent (length (bb_offsets buf)). intros fuel Hf.
  change (2 ^ 32 - 2)%N with 4294967294%N in HRows. unfold be_encode, bin_call. cbn [cl_past cl_held cl_rows cl_fates]. cbn zeta.
  pose proof (be_inv_len _ _ _ _ _ _ HI) as (HL0 & HN0 & HLa & HBy). rewrite HL0.
  destruct R as [|x R0].
  - change (0 <? num_vals (@nil row)) with false. cbn iota.
    pose proof (finish_ok B nl past fuel [] b e rows fates acc buf 0 (length b) (bytes_of b) HB HI HH) as PF.
    change (2 ^ 32 - 2)%N with 4294967294%N in PF. cbn [app] in PF.
    exact (PF ltac:(lia) ltac:(cbn [length] in *; lia) (fun _ => eq_refl) Hf ltac:(lia) ltac:(lia) (S (num_vals b)) ltac:(lia)).
  - assert (HE : ends_some (x :: R0)) by apply HI. set (R := x :: R0) in *. assert (HN : R <> []) by discriminate.
    change (match R with [] => ?a | _ => ?c end) with c. clearbody R. clear x R0.
    pose proof (nonempty_num R HE HN) as HP. destruct (Nat.ltb_spec 0 (num_vals R)); [|lia]. cbn zeta.
    assert (HM : be_min e = B) by apply HI. rewrite HM, HBy. pose proof HH as (HD & HO & HS).
    assert (HCB : (N.of_nat (cbytes (somes b)) <= u32_max)%N) by (change (cbytes (somes b)) with (bytes_of b); lia).
    assert (HAb : rows_allowed nl b) by (apply bb_holds_allowed in HH; exact HH).
    pose proof (room_ok B nl R b buf HH HL) as RO. cbn zeta in RO.
    destruct (sub64 p B (N.of_nat (bytes_of R))) as [want|kk|]; cbn [bind] in RO |- *.
    2:{ destruct (bin_room p B R b) as [|k|]; [eexists; reflexivity|destruct RO as (_ & _ & c & X & _); discriminate X|destruct RO as (_ & c & X & _); discriminate X]. }
    2:{ destruct (bin_room p B R b) as [|k|]; [discriminate RO|destruct RO as (_ & _ & c & X & _); discriminate X|destruct RO as (_ & c & X & _); discriminate X]. }
    destruct (bin_room p B R b) as [|k|].
    + rewrite RO. eexists; reflexivity.
    + destruct RO as (F1 & F2 & c & -> & C0 & C1). rewrite bind_ret, C0, C1.
      set (w := take_vals k b) in *. set (b' := drop_vals k b) in *.
      assert (HW : num_vals w = k) by (unfold w; rewrite num_take; lia).
      assert (HWE : ends_some w) by (apply take_ends; exact F1).
      assert (ER : b = w ++ b') by (symmetry; apply take_drop).
      assert (HBB : bytes_of b = bytes_of w + bytes_of b') by (rewrite ER at 1; apply bytes_app).
      assert (LBB : length b = length w + length b') by (rewrite ER at 1; apply app_length).
      assert (HWA : rows_allowed nl w) by (apply allowed_take; exact HAb).
      pose proof (bb_append_from_eq p (be_remaining e) buf nl [] w b') as PA. cbn [app] in PA. rewrite <- ER in PA.
      specialize (PA HH HN0 HWE). rewrite HD in PA. fold (cbytes (somes b)) in PA. specialize (PA HCB HLa).
      rewrite HBy in PA. fold (bytes_of w) in PA. specialize (PA ltac:(lia) ltac:(unfold u64_lim; lia)).
      cbn [somes length Nat.add] in PA. fold (num_vals w) in PA. rewrite HW in PA. rewrite PA. clear PA.
      destruct (be_inv_extend B nl e past R rows w HI HWA HWE) as (rb & -> & I'); [lia|]. rewrite !bind_ret. cbn [fst snd].
      pose proof (be_inv_len _ _ _ _ _ _ I') as (HL1 & HN1 & HLa1 & HBy1). rewrite HBy1, bytes_app.
      cbn [be_min be_set_remaining]. rewrite HM.
      destruct (N.ltb_spec (N.of_nat (bytes_of R + bytes_of w)) B) as [X|_]; [lia|].
      assert (HNN : R ++ w <> []) by (destruct R; [congruence|discriminate]).
      assert (HEE : ends_some (R ++ w)) by apply I'.
      pose proof (be_write_remaining_ok scripted p B nl (be_set_remaining e rb) past (R ++ w) rows (fates, acc) I' HNN) as PW.
      change (2 ^ 32)%N with 4294967296%N in PW. rewrite bytes_app, app_length in PW. specialize (PW ltac:(lia) ltac:(lia)). cbn zeta in PW.
      pose proof (bemits_scripted nl [mk_item (length (seen nl past (R ++ w))) (seen nl past (R ++ w)) []] rows fates acc) as BS.
      destruct (seen_spec nl past (R ++ w) HEE) as (S1 & S2 & S3 & _).
      assert (BD : bounded [mk_item (length (seen nl past (R ++ w))) (seen nl past (R ++ w)) []] (length R + length b) (bytes_of R + bytes_of b)).
      { constructor; [|constructor]. cbn [it_rows it_extra]. unfold num_vals, bytes_of at 1. rewrite S1. fold (bytes_of (R ++ w)). rewrite bytes_app.
        pose proof (nonempty_num (R ++ w) HEE HNN) as NP. unfold num_vals in NP. rewrite app_length in S3. cbn [length]. split; [exact NP|]. split; lia. }
      unfold sink_fn in *.
      destruct (offer it_count bin_fine rows fates [_]) as [[[[a rows1] fates1] ok]|] eqn:EO.
      2:{ destruct BS as [kk BS]. rewrite BS in PW. rewrite PW. eexists; reflexivity. }
      pose proof (offer_sound _ _ _ _ _ _ _ _ _ BD EO) as HS1. rewrite BS in PW. destruct PW as (e1 & v & -> & I1 & R1). rewrite bind_ret.
      destruct ok; cbn [verdict].
      * pose proof (finish_ok B nl ((R ++ w) :: past) fuel w b' _ rows1 fates1 (acc ++ written nl a) buf (if nl then length w else num_vals w)
          (length R + length b) (bytes_of R + bytes_of b) HB (be_inv_clear _ _ _ _ _ _ I1)) as PF.
        change (2 ^ 32 - 2)%N with 4294967294%N in PF. rewrite <- ER in PF.
        assert (NB : num_vals b' = num_vals b - k) by apply num_drop.
        assert (HVP : nl = true -> (if nl then length w else num_vals w) = length w) by (intros ->; reflexivity).
        specialize (PF HH ltac:(lia) ltac:(lia) HVP ltac:(lia) ltac:(lia) ltac:(lia) (S (num_vals b)) ltac:(lia)). rewrite HW in PF.
        destruct (bin_finish p nl B _ rows1 fates1 (S (num_vals b)) k (length w) b') as [[[a' st'] ok']|]; [|exact PF].
        cbn [call_as] in PF |- *. destruct PF as (e' & E & I2 & S2' & L1 & L2). exists e'. split.
        { unfold written in *. rewrite map_app, app_assoc. exact E. }
        split; [exact I2|]. split; [apply Forall_app; split; assumption|]. split; assumption.
      * cbn [call_as cl_fates cl_past cl_held cl_rows verdict]. exists e1. split.
        { cbn [offer] in EO. destruct (_ && _); [|discriminate EO]. destruct fates as [|[|] fates]; cbn [offer tl] in EO; try discriminate EO.
          injection EO as <- <- <-. reflexivity. }
        split; [exact I1|]. split; [constructor|]. rewrite app_length, bytes_app. lia.
    + destruct RO as (F1 & c & -> & C0 & C1). rewrite bind_ret, C0, C1.
      assert (ER : b = trim b ++ drop_vals (num_vals b) b) by (symmetry; apply take_drop).
      assert (ET : somes (trim b) = somes b) by (unfold trim; rewrite take_somes; apply firstn_all).
      assert (HTB : bytes_of (trim b) = bytes_of b) by (unfold bytes_of; rewrite ET; reflexivity).
      assert (HTA : rows_allowed nl (trim b)) by (apply allowed_take; exact HAb).
      pose proof (bb_append_from_eq p (be_remaining e) buf nl [] (trim b) (drop_vals (num_vals b) b)) as PA. cbn [app] in PA. rewrite <- ER in PA.
      specialize (PA HH HN0 (trim_ends b)). rewrite HD in PA. change (length (concat (somes b))) with (bytes_of b) in PA. specialize (PA HCB HLa).
      rewrite HBy in PA. fold (bytes_of (trim b)) in PA. rewrite HTB, ET in PA. specialize (PA ltac:(lia) ltac:(unfold u64_lim; lia)).
      cbn [somes length Nat.add] in PA. fold (num_vals b) in PA. rewrite PA. clear PA.
      destruct (be_inv_extend B nl e past R rows (trim b) HI HTA (trim_ends b)) as (rb & -> & I'); [lia|]. rewrite !bind_ret. cbn [fst snd].
      pose proof (be_inv_len _ _ _ _ _ _ I') as (_ & _ & _ & HBy1). rewrite HBy1, bytes_app, HTB. cbn [be_min be_set_remaining]. rewrite HM.
      destruct (N.ltb_spec (N.of_nat (bytes_of R + bytes_of b)) B) as [_|X]; [|lia].
      cbn [call_as cl_fates cl_past cl_held cl_rows verdict written map]. rewrite app_nil_r. eexists; split; [reflexivity|]. split; [exact I'|].
      split; [constructor|]. rewrite app_length, bytes_app, HTB. pose proof (trim_length b). lia.
Qed.

Lemma flush_call B nl past e R rows fates acc :
  be_inv B nl e past R rows -> (N.of_nat (bytes_of R) < u32_max)%N -> (N.of_nat (length R) <= 2 ^ 32 - 2)%N ->
  call_as B nl (length R) (bytes_of R) acc (bin_call p nl B (mk_col past R rows fates) None) (be_flush scripted p e (fates, acc)).
Proof.
  intros HI HL HRows. change (2 ^ 32 - 2)%N with 4294967294%N in HRows.
  pose proof (be_flush_ok scripted p B nl e past R rows (fates, acc) HI ltac:(lia)) as PF. change (2 ^ 32)%N with 4294967296%N in PF. specialize (PF ltac:(lia)).
  unfold bin_call. cbn [cl_past cl_held cl_rows cl_fates]. cbn zeta. assert (HE : ends_some R) by apply HI.
  destruct R as [|x R0].
  - cbn [bin_last bemits] in PF. destruct PF as (e' & -> & I'). cbn [call_as cl_fates cl_past cl_held cl_rows verdict written map]. rewrite app_nil_r.
    exists e'. split; [reflexivity|]. split; [exact I'|]. split; [constructor|]. split; reflexivity.
  - set (R := x :: R0) in *. assert (HN : R <> []) by discriminate.
    change (bin_last nl past R) with [mk_item (length (seen nl past R)) (seen nl past R) []] in PF. change (match R with [] => ?a | _ => ?c end) with c.
    clearbody R. pose proof (bemits_scripted nl [mk_item (length (seen nl past R)) (seen nl past R) []] rows fates acc) as BS.
    destruct (seen_spec nl past R HE) as (S1 & S2 & S3 & _).
    assert (BD : bounded [mk_item (length (seen nl past R)) (seen nl past R) []] (length R) (bytes_of R)).
    { constructor; [|constructor]. cbn [it_rows it_extra]. unfold num_vals, bytes_of at 1. rewrite S1. fold (bytes_of R).
      pose proof (nonempty_num R HE HN) as NP. unfold num_vals in NP. cbn [length]. split; [exact NP|]. split; lia. }
    unfold sink_fn in *. destruct (offer it_count bin_fine rows fates [_]) as [[[[a rows1] fates1] ok]|] eqn:EO.
    + pose proof (offer_sound _ _ _ _ _ _ _ _ _ BD EO) as HS1. rewrite BS in PF. destruct PF as (e' & -> & I').
      cbn [call_as cl_fates cl_past cl_held cl_rows]. exists e'. split; [reflexivity|]. split; [exact I'|]. split; [exact HS1|]. split; reflexivity.
    + cbn [call_as]. destruct BS as [kk BS]. rewrite BS in PF. rewrite PF. eexists; reflexivity.
Qed.

Definition call_holds (nl : bool) (c : option bin_buf) (r : option (list row)) : Prop :=
  match c, r with Some buf, Some b => bb_holds buf nl b | None, None => True | _, _ => False end.

Lemma calls_ok B nl : (0 < B <= u32_max)%N -> forall calls rowss, Forall2 (call_holds nl) calls rowss ->
  forall e past R rows fates acc len bytes, be_inv B nl e past R rows ->
  length R + length (calls_rows rowss) <= len -> bytes_of R + bytes_of (calls_rows rowss) <= bytes ->
  (N.of_nat bytes < u32_max)%N -> (N.of_nat len <= 2 ^ 32 - 2)%N ->
  match history (bin_call p nl B) (mk_col past R rows fates) rowss with
  | None => is_panic (be_calls scripted p e calls (fates, acc))
  | Some (a, st, oks) => exists e', be_calls scripted p e calls (fates, acc) = Ret (e', (cl_fates st, acc ++ written nl a), map verdict oks)
      /\ be_inv B nl e' (cl_past st) (cl_held st) (cl_rows st) /\ sound len bytes a
  end.
Proof.
  intros HB. induction 1 as [|c r calls rowss HC _ IH]; intros e past R rows fates acc len bytes HI L1 L2 HL HRows.
  - cbn [history be_calls map written cl_fates cl_past cl_held cl_rows]. rewrite app_nil_r. exists e. split; [reflexivity|]. split; [exact HI|constructor].
  - cbn [history be_calls]. unfold calls_rows in L1, L2. cbn [map concat] in L1, L2. fold (calls_rows rowss) in L1, L2. rewrite app_length in L1. rewrite bytes_app in L2.
    change (2 ^ 32 - 2)%N with 4294967294%N in HRows.
    assert (CA : call_as B nl (length R + length (call_rows r)) (bytes_of R + bytes_of (call_rows r)) acc (bin_call p nl B (mk_col past R rows fates) r)
       (match c with Some b => be_encode scripted p (length (bb_offsets b)) e b (fates, acc) | None => be_flush scripted p e (fates, acc) end)).
    { destruct c as [buf|], r as [b|]; cbn in HC; try contradiction; cbn [call_rows] in *.
      - apply encode_call; auto; [lia|]. change (2 ^ 32 - 2)%N with 4294967294%N. lia.
      - cbn [length]. change (bytes_of []) with 0. rewrite !Nat.add_0_r. apply flush_call; auto; [lia|]. change (2 ^ 32 - 2)%N with 4294967294%N. cbn [length] in *. lia. }
    unfold sink_fn in *. destruct (bin_call p nl B (mk_col past R rows fates) r) as [[[a st] ok]|]; cbn [call_as] in CA.
    2:{ destruct CA as [kk ->]. eexists; reflexivity. }
    destruct CA as (e1 & -> & I1 & S1 & LA & LB). rewrite bind_ret. destruct st as [past1 R1 rows1 fates1]. cbn [cl_fates cl_past cl_held cl_rows] in *.
    specialize (IH e1 past1 R1 rows1 fates1 (acc ++ written nl a) len bytes I1 ltac:(lia) ltac:(lia) HL).
    change (2 ^ 32 - 2)%N with 4294967294%N in IH. specialize (IH HRows).
    destruct (history (bin_call p nl B) _ rowss) as [[[a2 st2] oks]|].
    2:{ destruct IH as [kk ->]. eexists; reflexivity. }
    destruct IH as (e2 & -> & I2 & S2). rewrite bind_ret. exists e2. cbn [map]. unfold written. rewrite map_app, app_assoc. split; [reflexivity|]. split; [exact I2|].
    apply Forall_app. split; [eapply sound_le; [exact S1| |]; lia|exact S2].
Qed.
End Fail.

(** C55, every history of a binary column: calls of [encode] and [flush] in any
    order on a new encoder, going on after failed calls, with a sink that rejects
    any blocks.  [bin_call] says, call by call, which blocks are accepted and with
    which identifiers, what is held back then and whether the call fails;
    if it says nothing the history panics.  In particular a rejected block's rows
    stay counted, and what is held back is not taken back.  Together all buffers
    have less than 2^32-1 bytes and at most 2^32-2 rows. *)
Theorem C55_binary_history_exact : forall p B nl calls rowss fates, (0 < B < 2 ^ 32)%N ->
  Forall2 (call_holds nl) calls rowss ->
  (N.of_nat (length (calls_rows rowss)) <= 2 ^ 32 - 2)%N -> (N.of_nat (bytes_of (calls_rows rowss)) < 2 ^ 32 - 1)%N ->
  match history (bin_call p nl B) (mk_col [] [] 0%N fates) rowss with
  | Some (accepted, st, oks) =>
      exists e blocks, be_calls scripted p (be_new B nl) calls (fates, []) = Ret (e, (cl_fates st, blocks), map verdict oks)
        /\ Forall2 (fun a b => fst b = fst a /\ layout p nl (it_rows (snd a)) (it_extra (snd a)) (snd b)) accepted blocks
        /\ be_rows e = cl_rows st /\ bb_data (be_remaining e) = concat (somes (cl_held st))
  | None => is_panic (be_calls scripted p (be_new B nl) calls (fates, []))
  end.
Proof.
  intros p B nl calls rowss fates HB HC HL HBy. change (2 ^ 32)%N with 4294967296%N in *. change (4294967296 - 1)%N with 4294967295%N in HBy.
  change (4294967296 - 2)%N with 4294967294%N in HL.
  pose proof (calls_ok p B nl ltac:(unfold u32_max; lia) calls rowss HC (be_new B nl) [] [] 0%N fates []
    (length (calls_rows rowss)) (bytes_of (calls_rows rowss)) (be_inv_new B nl) ltac:(cbn; lia) ltac:(cbn; lia) ltac:(unfold u32_max; lia)) as CO.
  change (2 ^ 32 - 2)%N with 4294967294%N in CO. specialize (CO HL).
  destruct (history (bin_call p nl B) _ rowss) as [[[a st] oks]|]; [|exact CO].
  destruct CO as (e & E & I & SO). exists e, (written nl a). split; [exact E|]. split; [|destruct I as (D & _ & _ & _ & _ & _ & RR); split; assumption].
  clear - SO HL HBy. unfold written. induction SO as [|x a (A & LB & BB) _ IH]; cbn [map]; constructor; [|exact IH]. cbn [fst snd]. split; [reflexivity|].
  apply bin_block_layout; [exact A|change (2 ^ 32)%N with 4294967296%N; lia|unfold u64_lim; lia].
Qed.
Print Assumptions C55_binary_history_exact.

(** Block size 4.  The second call completes a block, which is rejected; the rows
    of that block stay held back, 5 bytes, and the rest of the buffer is lost.
    A flush is rejected too.  The last call panics if overflows are detected;
    otherwise it adds its whole buffer and writes all of it, under an identifier
    that counts the first two rows three times. *)
Definition fail_rows : list (option (list row)) :=
  [Some [Some [1; 2; 3]]; Some [Some [4; 5]; None; Some [6]]; None; Some [Some [7]; Some [8]]]%N.

Example C55_binary_history_witness :
  history (bin_call Debug true 4) (mk_col [] [] 0%N [false; false]) fail_rows = None
  /\ match history (bin_call Release true 4) (mk_col [] [] 0%N [false; false]) fail_rows with
     | Some (accepted, st, oks) =>
         map (fun a => (fst a, it_rows (snd a))) accepted = [(7, [Some [1; 2; 3]; Some [4; 5]; Some [7]; Some [8]])]%N
         /\ cl_held st = [] /\ cl_rows st = 8%N /\ oks = [true; false; false; true]
     | None => False end
  /\ match bb_fill true (map call_rows fail_rows) with
     | Ret [b1; b2; _; b4] =>
         let calls := [Some b1; Some b2; None; Some b4] in
         Forall2 (call_holds true) calls fail_rows
         /\ is_panic (be_calls scripted Debug (be_new 4 true) calls ([false; false], []))
         /\ match be_calls scripted Release (be_new 4 true) calls ([false; false], []) with
            | Ret (_, (_, blocks), ress) => map fst blocks = [7]%N /\ ress = [Ok tt; Err; Err; Ok tt]
            | _ => False end
     | _ => False end.
Proof.
  split; [vm_compute; reflexivity|]. split; [vm_compute; repeat split|].
  pose proof (bb_fill_ok true (map call_rows fail_rows)) as BF.
  destruct BF as (bufs & E & F); [repeat (constructor; [left; reflexivity|]); constructor|repeat (constructor; [vm_compute; discriminate|]); constructor|].
  rewrite E. vm_compute in E. injection E as <-.
  inversion_clear F as [|? ? ? ? F1 F']. inversion_clear F' as [|? ? ? ? F2 F]. inversion_clear F as [|? ? ? ? F3 F']. inversion_clear F' as [|? ? ? ? F4 F].
  cbn zeta. split; [constructor; [exact F1|constructor; [exact F2|constructor; [exact I|constructor; [exact F4|constructor]]]]|].
  split; [eexists; vm_compute; reflexivity|]. vm_compute. repeat split.
Qed.
