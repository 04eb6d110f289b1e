(** The binary encoder: what [encode] and [flush] do, for every sink. *)
From Verif Require Import Base BaseProofs Spec SpecRows SpecBin Varint VarintProofs Buffers Observe BitmapProofs BuffersProofs
  Rle Offsets OffsetsProofs Sink BinEnc RowsProofs BlockProofs BinBlockProofs.
Open Scope nat_scope.

Notation row := (option (list N)).

(** ** How held back rows look *)

Definition display {T} (past : list (list (option T))) (R : list (option T)) : list bool := stale_or (dirty past) 0 (validity_of R).

Lemma display_seen {T} nl past (R : list (option T)) :
  seen nl past R = if nl then place (display past R) (somes R) else R.
Proof.
  unfold seen, display. destruct nl; [|reflexivity]. f_equal.
  apply nth_ext with (d := false) (d' := false).
  - rewrite map_length, seq_length, stale_or_length, validity_length. reflexivity.
  - intros i Hi. rewrite map_length, seq_length in Hi.
    rewrite stale_or_nth by (rewrite validity_length; exact Hi).
    rewrite (nth_indep _ false ((fun i => nth i (validity_of R) false || dirty past i) 0)) by (rewrite map_length, seq_length; exact Hi).
    rewrite (map_nth (fun i => nth i (validity_of R) false || dirty past i)), seq_nth by exact Hi. reflexivity.
Qed.

Lemma stale_or_count st v : forall k, count_true v <= count_true (stale_or st k v).
Proof.
  induction v as [|x v IH]; intros k; [cbn; lia|]. cbn [stale_or]. rewrite !count_true_cons. specialize (IH (S k)).
  destruct x, (st k); cbn in *; lia.
Qed.

Lemma stale_or_app st a b : forall k, stale_or st k (a ++ b) = stale_or st k a ++ stale_or st (k + length a) b.
Proof.
  induction a as [|x a IH]; intros k; cbn [app stale_or length]; [rewrite Nat.add_0_r; reflexivity|].
  rewrite IH. replace (S k + length a) with (k + S (length a)) by lia. reflexivity.
Qed.

Lemma place_spec {T} D : forall (vs : list T), length vs <= count_true D ->
  somes (place D vs) = vs /\ ends_some (place D vs) /\ exists after, D = validity_of (place D vs) ++ after.
Proof.
  induction D as [|b D IH]; intros vs H; [destruct vs; [|cbn in H; lia]; cbn; split; [reflexivity|]; split; [left; reflexivity|eauto]|].
  rewrite count_true_cons in H. destruct vs as [|v vs].
  - cbn. split; [reflexivity|]. split; [left; reflexivity|eauto].
  - destruct b; cbn [place].
    + destruct (IH vs) as (I1 & I2 & a & I3); [cbn in H; lia|]. cbn [somes validity_of map is_some app].
      split; [rewrite I1; reflexivity|]. split.
      * destruct I2 as [E|(r & x & E)]; [rewrite E; right; exists [], v; reflexivity|].
        rewrite E. right. exists (Some v :: r), x. reflexivity.
      * exists a. fold (validity_of (place D vs)). rewrite <- I3. reflexivity.
    + destruct (IH (v :: vs)) as (I1 & I2 & a & I3); [cbn in H |- *; lia|]. cbn [somes validity_of map is_some app].
      split; [exact I1|]. split.
      * destruct I2 as [E|(r & x & E)]; [rewrite E in I1; discriminate|].
        rewrite E. right. exists (None :: r), x. reflexivity.
      * exists a. fold (validity_of (place D (v :: vs))). rewrite <- I3. reflexivity.
Qed.

Lemma seen_spec {T} nl past (R : list (option T)) : ends_some R ->
  somes (seen nl past R) = somes R /\ ends_some (seen nl past R) /\ length (seen nl past R) <= length R
  /\ (rows_allowed nl R -> rows_allowed nl (seen nl past R)).
Proof.
  intros HE. rewrite display_seen. destruct nl; [|auto].
  assert (HC : length (somes R) <= count_true (display past R)).
  { rewrite <- count_validity. apply stale_or_count. }
  destruct (place_spec _ _ HC) as (P1 & P2 & a & P3). split; [exact P1|]. split; [exact P2|]. split; [|left; reflexivity].
  apply (f_equal (@length bool)) in P3. unfold display in P3 at 1. rewrite app_length, stale_or_length, !validity_length in P3. lia.
Qed.

Lemma seen_window {T} past (R : list (option T)) : ends_some R ->
  valid_window (display past R) 0 (num_vals R) (validity_of (seen true past R)).
Proof.
  intros HE. rewrite display_seen.
  assert (HC : length (somes R) <= count_true (display past R)).
  { rewrite <- count_validity. apply stale_or_count. }
  destruct (place_spec _ _ HC) as (P1 & P2 & a & P3). exists [], a. split; [exact P3|]. split; [reflexivity|].
  split; [rewrite count_validity, P1; reflexivity|].
  destruct P2 as [E|(r & x & E)]; rewrite E; [left; reflexivity|]. right. exists (validity_of r).
  unfold validity_of. rewrite map_app. reflexivity.
Qed.

Lemma rep_ext b bits st st' : (forall i, st i = st' i) -> bm_rep b bits st -> bm_rep b bits st'.
Proof.
  intros HE (A & B & C & D). split; [exact A|]. split; [exact B|]. split; [exact C|].
  intros i. rewrite D. destruct (i <? length bits); auto.
Qed.

Lemma dirty_cons {T} past (R : list (option T)) i :
  (i <? 8 * INITIAL_BITMAP_CAP) && (if i <? length (display past R) then nth i (display past R) false else dirty past i)
  = dirty (R :: past) i.
Proof.
  unfold display. rewrite stale_or_length, validity_length. unfold dirty at 3. cbn [existsb].
  assert (E : (i <? 8 * INITIAL_BITMAP_CAP) = (N.of_nat i <? 8192)%N).
  { unfold INITIAL_BITMAP_CAP. destruct (Nat.ltb_spec i (8 * 1024)), (N.ltb_spec (N.of_nat i) 8192); try reflexivity; lia. }
  rewrite E. destruct (N.ltb_spec (N.of_nat i) 8192) as [L|L]; [|reflexivity]. cbn [andb].
  destruct (Nat.ltb_spec i (length R)) as [H|H].
  - rewrite stale_or_nth by (rewrite validity_length; exact H). f_equal. cbn [Nat.add]. unfold dirty.
    destruct (N.ltb_spec (N.of_nat i) 8192); [reflexivity|lia].
  - rewrite (nth_overflow (validity_of R)) by (rewrite validity_length; lia). cbn [orb]. unfold dirty.
    destruct (N.ltb_spec (N.of_nat i) 8192); [reflexivity|lia].
Qed.

Section Enc.
Context {S : Type} (wr : sink_fn S) (p : profile).

(** Writing the given blocks until the sink fails. *)
Fixpoint bemits (nl : bool) (rows : N) (items : list bin_item) (s : S) : outcome (N * S * result unit) :=
  match items with
  | [] => Ret (rows, s, Ok tt)
  | it :: rest =>
      if 128 <? num_vals (it_rows it) then Panic PAssert else
      let* rows := be_add_rows rows (it_count it) in
      match wr s (rows - 1)%N (bin_block nl (it_rows it) (it_extra it)) with
      | (s', Ok _) => bemits nl rows rest s'
      | (s', Err) => Ret (rows, s', Err)
      end
  end.

Lemma bemits_app nl a : forall rows b s,
  bemits nl rows (a ++ b) s = let* r := bemits nl rows a s in
    let '(rows, s, res) := r in match res with Ok _ => bemits nl rows b s | Err => Ret (rows, s, Err) end.
Proof.
  induction a as [|it a IH]; intros rows b s; cbn [app bemits]; [reflexivity|].
  destruct (128 <? _); [reflexivity|]. rewrite bind_assoc. apply bind_ext. intros r'.
  destruct (wr _ _ _) as [s' [[]|]]; [apply IH|reflexivity].
Qed.

Lemma badd_rows rows n rows' : be_add_rows rows n = Ret rows' -> rows' = (rows + N.of_nat n)%N /\ (rows' <= u32_max)%N.
Proof.
  unfold be_add_rows. destruct (N.leb_spec (N.of_nat n) u32_max); [|discriminate].
  destruct (N.leb_spec (rows + N.of_nat n) u32_max); [|discriminate]. intros [= <-]. split; [reflexivity|assumption].
Qed.

Lemma badd_fuel rows n : be_add_rows rows n <> NoFuel.
Proof. unfold be_add_rows. destruct (_ <=? _)%N; [destruct (_ <=? _)%N|]; discriminate. Qed.

Lemma bemits_nofuel nl items : forall rows s, bemits nl rows items s <> NoFuel.
Proof.
  induction items as [|it items IH]; intros rows s; cbn [bemits]; [discriminate|].
  destruct (128 <? _); [discriminate|]. destruct (be_add_rows rows (it_count it)) as [r'| |] eqn:E; cbn [bind]; [|discriminate|].
  - destruct (wr _ _ _) as [s' [[]|]]; [apply IH|discriminate].
  - destruct (badd_fuel _ _ E).
Qed.

(** The encoder holds back the rows [R], cleared the rows [past] before, and
    counted [rows] rows. *)
Definition be_inv (B : N) (nl : bool) (e : bin_enc) (past : list (list row)) (R : list row) (rows : N) : Prop :=
  bb_data (be_remaining e) = concat (somes R)
  /\ bb_offsets (be_remaining e) = running_offsets 0 (somes R)
  /\ val_rep (bb_validity (be_remaining e)) nl (display past R) (dirty past)
  /\ rows_allowed nl R /\ ends_some R /\ be_min e = B /\ be_rows e = rows.

Lemma be_inv_new B nl : be_inv B nl (be_new B nl) [] [] 0.
Proof.
  split; [reflexivity|]. split; [reflexivity|]. split.
  - cbn. destruct nl; cbn; [split; [reflexivity|]|reflexivity].
    eapply rep_ext; [|apply rep_new]. intros i. unfold dirty, no_stale. cbn. rewrite andb_false_r. reflexivity.
  - split; [right; constructor|]. split; [left; reflexivity|]. split; reflexivity.
Qed.

Lemma be_inv_len B nl e past R rows : be_inv B nl e past R rows ->
  bb_len (be_remaining e) = num_vals R /\ bb_is_nullable (be_remaining e) = nl
  /\ last (bb_offsets (be_remaining e)) 0%N = N.of_nat (length (bb_data (be_remaining e)))
  /\ length (bb_data (be_remaining e)) = bytes_of R.
Proof.
  intros (HD & HO & HV & _). split; [unfold bb_len; rewrite HO, running_length; unfold num_vals; lia|]. split.
  - unfold bb_is_nullable. destruct (bb_validity (be_remaining e)); cbn in HV; [symmetry; tauto|auto].
  - rewrite HD, HO, running_last. split; [lia|reflexivity].
Qed.

Lemma be_inv_extend B nl e past R rows more : be_inv B nl e past R rows -> rows_allowed nl more ->
  ends_some more -> (N.of_nat (bytes_of R + bytes_of more) <= u32_max)%N ->
  exists b, bb_append_rows (be_remaining e) more = Ret b
    /\ be_inv B nl (be_set_remaining e b) past (R ++ more) rows.
Proof.
  intros (HD & HO & HV & HA & HE & HM & HR) HA2 HE2 HL.
  destruct (bb_rows_rep (be_remaining e) nl _ _ more HV HA2) as (b & E & D & O & V); [rewrite HD; exact HL|].
  exists b. split; [exact E|]. unfold be_inv. cbn [be_set_remaining be_remaining be_min be_rows].
  split; [rewrite D, HD, somes_app, concat_app; reflexivity|].
  split; [rewrite O, HO, HD, somes_app, running_app; unfold snoc_offsets; rewrite N.add_0_l; reflexivity|].
  split. { unfold display in V |- *. rewrite stale_or_length in V. unfold validity_of. rewrite map_app, stale_or_app. exact V. }
  split; [apply allowed_app; auto|]. split; [|auto].
  destruct more; [rewrite app_nil_r; exact HE|]. apply ends_app; [exact HE2|discriminate].
Qed.

Lemma be_inv_clear B nl e past R rows : be_inv B nl e past R rows ->
  be_inv B nl (be_set_remaining e (bb_clear (be_remaining e))) (R :: past) [] rows.
Proof.
  intros (HD & HO & HV & HA & HE & HM & HR). unfold be_inv. cbn [be_set_remaining be_remaining be_min be_rows bb_clear bb_data bb_offsets bb_validity].
  split; [reflexivity|]. split; [rewrite HO; destruct (running_head 0 (somes R)) as [l ->]; reflexivity|].
  split. { destruct (bb_validity (be_remaining e)) as [bm|]; cbn [option_map val_rep] in *; [|exact HV].
           destruct HV as [-> HV]. split; [reflexivity|]. cbn. eapply rep_ext; [|apply clear_rep; exact HV].
           intros i. apply dirty_cons. }
  split; [right; constructor|]. split; [left; reflexivity|]. auto.
Qed.

(** One block. *)
Lemma be_write_block B nl e past R rows buf items bits s k extra w vp st cnt ex :
  be_inv B nl e past R rows ->
  bb_data buf = concat items -> bb_offsets buf = running_offsets 0 items -> (N.of_nat (cbytes items) <= u32_max)%N ->
  match bb_validity buf with
  | Some bm => nl = true /\ reads_as bm bits /\ valid_window bits vp k (validity_of w)
               /\ (N.of_nat (length w) <= 2 ^ 32)%N /\ cnt = vp + length w
  | None => nl = false /\ cnt = k end ->
  1 <= k -> (N.of_nat k < 2 ^ 63)%N -> s + k + extra <= length items ->
  somes w = firstn k (skipn s items) -> ex = concat (firstn extra (skipn k (skipn s items))) ->
  let from := N.of_nat (cbytes (firstn s items)) in
  let size := N.of_nat (cbytes (firstn (k + extra) (skipn s items))) in
  let c := mk_bchunk s (s + k) from (from + size) size (N.of_nat k) in
  match bemits nl rows [mk_item cnt w ex] st with
  | Ret (rows', st', res) => exists e',
      be_write wr p e buf c vp st = Ret (e', st', match res with Ok _ => Ok (if nl then cnt else 0) | Err => Err end)
      /\ be_inv B nl e' past R rows' /\ be_remaining e' = be_remaining e
  | Panic k' => be_write wr p e buf c vp st = Panic k'
  | NoFuel => False
  end.
Proof.
  intros HI HD HO HL HV Hk Hk63 Hs Hw Hex from size c.
  assert (Hnum : num_vals w = k). { unfold num_vals. rewrite Hw, firstn_length, skipn_length. lia. }
  cbn [bemits it_rows it_count it_extra]. rewrite Hnum. unfold be_write.
  destruct (Nat.ltb_spec 128 k) as [K|K].
  { unfold c, from, size. rewrite (encode_binary_panics p buf items s (s + k) (k + extra) (N.of_nat k) vp (be_bitmap e) HD HO HL);
      [reflexivity| |lia|]; replace (s + k - s) with k by lia; [right; exact K|exact Hk63]. }
  assert (HV' : match bb_validity buf with
     | Some bm => nl = true /\ reads_as bm bits /\ valid_window bits vp k (validity_of w) /\ (N.of_nat (length (validity_of w)) <= 2 ^ 32)%N
     | None => nl = false end).
  { destruct (bb_validity buf); [|tauto]. rewrite validity_length. tauto. }
  destruct (encode_binary_ok p buf nl items bits s k extra (validity_of w) vp (be_bitmap e) HD HO HL HV' ltac:(lia) Hs) as (rle' & E).
  fold from size c in E. rewrite E, bind_ret.
  assert (EC : (if nl then (vp + length (validity_of w), vp + length (validity_of w)) else (k, 0)) = (cnt, if nl then cnt else 0)).
  { rewrite validity_length. destruct (bb_validity buf).
    - destruct HV as (-> & _ & _ & _ & ->). reflexivity.
    - destruct HV as (-> & ->). reflexivity. }
  rewrite EC. cbn beta iota zeta.
  assert (EB : varint_bytes size ++ concat (firstn (k + extra) (skipn s items)) ++ lens_bytes (firstn k (skipn s items))
             ++ (if nl then validity_bytes (validity_of w) else []) = bin_block nl w ex).
  { unfold bin_block, bytes_of. rewrite Hw, Hex. unfold size. rewrite firstn_skipn_add, cbytes_app, concat_app, <- !app_assoc. reflexivity. }
  rewrite EB. assert (Hcnt : 0 < cnt).
  { destruct (bb_validity buf); [|lia]. destruct HV as (_ & _ & _ & _ & ->). destruct w; [cbn in Hnum; lia|]. cbn. lia. }
  destruct HI as (I1 & I2 & I3 & I4 & I5 & I6 & I7). rewrite I7.
  destruct (be_add_rows rows cnt) as [rows'| |] eqn:EA; cbn [bind].
  - apply badd_rows in EA. destruct EA as [EA _].
    rewrite sub32_ok by lia. rewrite bind_ret.
    destruct (wr st (rows' - 1)%N (bin_block nl w ex)) as [s' [[]|]]; cbn [fst snd];
      (eexists; split; [reflexivity|]); (split; [|reflexivity]); unfold be_inv; cbn [be_remaining be_min be_rows]; repeat (split; [assumption|]); reflexivity.
  - reflexivity.
  - destruct (badd_fuel _ _ EA).
Qed.

(** Writing the held back rows. *)
Lemma be_write_remaining_ok B nl e past R rows st :
  be_inv B nl e past R rows -> R <> [] -> (N.of_nat (bytes_of R) <= u32_max)%N -> (N.of_nat (length R) <= 2 ^ 32)%N ->
  let w := seen nl past R in
  match bemits nl rows [mk_item (length w) w []] st with
  | Ret (rows', st', res) => exists e' v,
      be_write_remaining wr p e st = Ret (e', st', match res with Ok _ => Ok v | Err => Err end)
      /\ be_inv B nl e' past R rows' /\ be_remaining e' = be_remaining e
  | Panic k' => be_write_remaining wr p e st = Panic k'
  | NoFuel => False
  end.
Proof.
  intros HI HN HL HLen w. pose proof HI as (HD & HO & HV & HA & HE & HM & HR).
  destruct (seen_spec nl past R HE) as (S1 & S2 & S3 & S4). fold w in S1, S2, S3, S4.
  pose proof (nonempty_num R HE HN) as HP. pose proof (somes_length_le R) as HC. fold (num_vals R) in HC.
  change (2 ^ 32)%N with 4294967296%N in HLen.
  pose proof (be_write_block B nl e past R rows (be_remaining e) (somes R) (display past R) 0 (num_vals R) 0 w 0 st (length w) []
    HI HD HO HL) as PW.
  assert (HV' : match bb_validity (be_remaining e) with
     | Some bm => nl = true /\ reads_as bm (display past R) /\ valid_window (display past R) 0 (num_vals R) (validity_of w)
               /\ (N.of_nat (length w) <= 2 ^ 32)%N /\ length w = 0 + length w
     | None => nl = false /\ length w = num_vals R end).
  { destruct (bb_validity (be_remaining e)) as [bm|]; cbn [val_rep] in HV.
    - destruct HV as [-> HV]. split; [reflexivity|]. split; [eapply rep_reads; exact HV|].
      split; [apply seen_window; exact HE|]. split; [change (2 ^ 32)%N with 4294967296%N; lia|reflexivity].
    - split; [exact HV|]. subst nl. unfold w, seen. symmetry. apply allowed_false_num. exact HA. }
  specialize (PW HV' HP). change (2 ^ 63)%N with 9223372036854775808%N in PW.
  specialize (PW ltac:(lia)). cbn [Nat.add skipn] in PW. rewrite Nat.add_0_r in PW.
  specialize (PW ltac:(unfold num_vals; lia)). unfold num_vals at 1 in PW. rewrite firstn_all in PW.
  specialize (PW S1 eq_refl). cbn zeta in PW. cbn [firstn] in PW.
  replace (firstn (num_vals R) (somes R)) with (somes R) in PW by (unfold num_vals; rewrite firstn_all; reflexivity).
  change (N.of_nat (cbytes [])) with 0%N in PW. rewrite N.add_0_l in PW.
  assert (EQ : be_write_remaining wr p e st = be_write wr p e (be_remaining e)
     (mk_bchunk 0 (num_vals R) 0 (N.of_nat (cbytes (somes R))) (N.of_nat (cbytes (somes R))) (N.of_nat (num_vals R))) 0 st).
  { unfold be_write_remaining. rewrite HO, running_length. cbn [Nat.sub]. rewrite Nat.sub_0_r.
    rewrite running_idx by lia. rewrite firstn_all, bind_ret.
    replace (bb_len (be_remaining e)) with (num_vals R) by (symmetry; apply (be_inv_len _ _ _ _ _ _ HI)). reflexivity. }
  rewrite EQ. destruct (bemits nl rows [mk_item (length w) w []] st) as [[[rows' st'] res]|k|]; auto.
  destruct PW as (e' & E & I & Rm). exists e', (if nl then length w else 0). auto.
Qed.

Lemma bb_holds_allowed b nl (rows : list row) : bb_holds b nl rows -> rows_allowed nl rows.
Proof. intros (_ & _ & H). destruct (bb_validity b); cbn in H; [left; tauto|right; tauto]. Qed.

Lemma bvalidity_pos_irrelevant dst buf start end_ a b (rows : list row) : bb_holds buf false rows ->
  bb_is_nullable dst = false ->
  bb_append_from p dst buf start end_ a = bb_append_from p dst buf start end_ b.
Proof.
  intros (_ & _ & H) HD. unfold bb_append_from. destruct (bb_validity buf); cbn in H; [destruct H; discriminate|].
  unfold bb_is_nullable in HD. destruct (bb_validity dst); [discriminate|reflexivity].
Qed.

Lemma take_somes {T} k : forall (rows : list (option T)), somes (take_vals k rows) = firstn k (somes rows).
Proof.
  intros rows. revert k. induction rows as [|[v|] rows IH]; intros [|k]; cbn; auto; [f_equal; apply IH|apply (IH (Datatypes.S k))].
Qed.

Lemma drop_somes {T} k : forall (rows : list (option T)), somes (drop_vals k rows) = skipn k (somes rows).
Proof.
  intros rows. revert k. induction rows as [|[v|] rows IH]; intros [|k]; cbn; auto. apply (IH (Datatypes.S k)).
Qed.

Lemma skipn_somes_app {T} (a b : list (option T)) : skipn (num_vals a) (somes (a ++ b)) = somes b.
Proof. rewrite somes_app. unfold num_vals. apply skipn_app_exact. Qed.
Lemma firstn_somes_app {T} (a b : list (option T)) : firstn (num_vals a) (somes (a ++ b)) = somes a.
Proof. rewrite somes_app. unfold num_vals. apply firstn_app_exact. Qed.

(** What [encode] does, given the blocks and how it ends. *)
Definition outcome_as (B : N) (nl : bool) (past : list (list row)) (rows : N) (items : list bin_item) (en : ending) (s : S)
  (run : outcome (bin_enc * S * result unit)) (on_err : bin_enc -> N -> Prop) : Prop :=
  match bemits nl rows items s with
  | Ret (rows', s', Ok _) =>
      match en with
      | Held R' => exists e', run = Ret (e', s', Ok tt) /\ be_inv B nl e' past R' rows'
      | Stuck k => run = Panic k
      end
  | Ret (rows', s', Err) => exists e', run = Ret (e', s', Err) /\ on_err e' rows'
  | Panic k => run = Panic k
  | NoFuel => False
  end.

(** The loop over the rest of a buffer, with nothing held back. *)
Lemma be_loop_ok B nl past : (0 < B <= u32_max)%N ->
  forall f fuel rest before e rows buf vp s,
  be_inv B nl e past [] rows -> bb_holds buf nl (before ++ rest) ->
  (N.of_nat (bytes_of (before ++ rest)) <= u32_max)%N ->
  (N.of_nat (length before + length rest) <= 2 ^ 32 - 2)%N ->
  (nl = true -> vp = length before) -> num_vals rest < f -> num_vals rest < fuel ->
  let r := bin_cut p nl f B (num_vals before) (length before) rest in
  outcome_as B nl past rows (fst r) (snd r) s (be_loop wr p fuel e buf (num_vals before) vp s)
    (fun e' rows' => be_inv B nl e' past [] rows').
Proof.
  intros HB. change (2 ^ 32 - 2)%N with 4294967294%N.
  induction f as [|f IH]; intros fuel rest before e rows buf vp s HI HH HL HRows HV Hf1 Hf2; [lia|].
  destruct fuel as [|fuel]; [lia|]. cbn [bin_cut be_loop]. cbn zeta.
  pose proof HH as (HD & HO & HS).
  set (items := somes (before ++ rest)) in *.
  assert (LI : length items = num_vals before + num_vals rest) by (unfold items; fold (num_vals (before ++ rest)); apply num_vals_app).
  rewrite HO, running_length. destruct (Nat.ltb_spec (num_vals before) (Datatypes.S (length items))); [|lia].
  fold (bytes_of (before ++ rest)) in HL. unfold bytes_of in HL. fold items in HL. fold (cbytes items) in HL.
  assert (HM : be_min e = B) by apply HI. rewrite HM.
  rewrite (be_chunk_ok p buf items) by (try lia; assumption).
  assert (ESk : skipn (num_vals before) items = somes rest) by apply skipn_somes_app.
  assert (EFi : firstn (num_vals before) items = somes before) by apply firstn_somes_app.
  rewrite ESk. pose proof (somes_length_le rest) as SL. pose proof (somes_length_le before) as SLb. fold (num_vals rest) in SL.
  fold (num_vals before) in SLb.
  destruct (fill B (somes rest)) as [q|] eqn:EF; cbn zeta.
  - pose proof (fill_some _ _ _ EF) as (F1 & F2 & F3). pose proof (fill_pos _ _ _ EF ltac:(lia)) as F4. fold (num_vals rest) in F1.
    destruct (Nat.leb_spec q (num_vals before)) as [Q|Q].
    + (* stuck *)
      cbn [fst snd]. unfold outcome_as. cbn [bemits]. unfold sub64, usub.
      assert (PA : forall len, be_write wr p e buf (mk_bchunk (num_vals before) q (N.of_nat (cbytes (firstn (num_vals before) items)))
            (N.of_nat (cbytes (firstn (num_vals before) items)) + N.of_nat (cbytes (firstn q (somes rest))))
            (N.of_nat (cbytes (firstn q (somes rest)))) len) vp s = Panic PAssert).
      { intros len. unfold be_write. rewrite <- ESk.
        rewrite (encode_binary_panics p buf items (num_vals before) q q len vp (be_bitmap e) HD HO HL); [reflexivity|left; lia|lia|].
        replace (q - num_vals before) with 0 by lia. reflexivity. }
      destruct (Nat.ltb_spec q (num_vals before)) as [Q2|Q2].
      * destruct (N.leb_spec (N.of_nat (num_vals before)) (N.of_nat q)); [lia|]. destruct p; [reflexivity|].
        cbn [bind bc_size]. destruct (N.ltb_spec (N.of_nat (cbytes (firstn q (somes rest)))) B); [lia|].
        rewrite PA. reflexivity.
      * destruct (N.leb_spec (N.of_nat (num_vals before)) (N.of_nat q)); [|lia].
        cbn [bind bc_size]. destruct (N.ltb_spec (N.of_nat (cbytes (firstn q (somes rest)))) B); [lia|].
        rewrite PA. reflexivity.
    + (* a block *)
      rewrite sub64_ok by lia. cbn [bind bc_size]. destruct (N.ltb_spec (N.of_nat (cbytes (firstn q (somes rest)))) B); [lia|].
      set (k := q - num_vals before). set (w := take_vals k rest). set (rest' := drop_vals k rest).
      assert (HW : num_vals w = k) by (unfold w; rewrite num_take; lia).
      assert (HWE : ends_some w) by (apply take_ends; lia).
      assert (ER : rest = w ++ rest') by (symmetry; apply take_drop).
      assert (ELen : length rest = length w + length rest') by (rewrite ER at 1; apply app_length).
      cbn [fst snd].
      set (cnt := if nl then length before + length w else length w).
      set (ex := concat (firstn (num_vals before) (skipn k (somes rest)))).
      pose proof (be_write_block B nl e past [] rows buf items (validity_of (before ++ rest)) (num_vals before) k (num_vals before)
        w vp s cnt ex HI HD HO HL) as PW.
      assert (HVX : match bb_validity buf with
        | Some bm => nl = true /\ reads_as bm (validity_of (before ++ rest)) /\ valid_window (validity_of (before ++ rest)) vp k (validity_of w)
               /\ (N.of_nat (length w) <= 2 ^ 32)%N /\ cnt = vp + length w
        | None => nl = false /\ cnt = k end).
      { destruct (bb_validity buf) as [bm|]; cbn [validity_shows] in HS.
        - destruct HS as [-> HS]. split; [reflexivity|]. split; [exact HS|]. rewrite (HV eq_refl). split.
          + pose proof (row_window before w rest' HWE) as RW. fold (num_vals w) in RW. rewrite HW, <- ER in RW. exact RW.
          + split; [change (2 ^ 32)%N with 4294967296%N; lia|reflexivity].
        - destruct HS as [-> HS]. split; [reflexivity|]. unfold cnt. rewrite <- HW. symmetry. apply allowed_false_num. right.
          apply Forall_app in HS. destruct HS as [_ HS]. rewrite ER in HS. apply Forall_app in HS. tauto. }
      specialize (PW HVX ltac:(lia)). change (2 ^ 63)%N with 9223372036854775808%N in PW.
      specialize (PW ltac:(lia) ltac:(lia)). rewrite ESk in PW.
      specialize (PW (take_somes k rest) eq_refl). cbn zeta in PW.
      replace (num_vals before + k) with q in PW by lia. replace (k + num_vals before) with q in PW by lia.
      replace (N.of_nat q - N.of_nat (num_vals before))%N with (N.of_nat k) by lia.
      unfold outcome_as. change (mk_item cnt w ex :: ?l) with ([mk_item cnt w ex] ++ l). rewrite bemits_app.
      destruct (bemits nl rows [mk_item cnt w ex] s) as [[[rows1 s1] res1]|k1|]; cbn [bind]; [| |contradiction].
      * destruct PW as (e1 & -> & I1 & R1). rewrite bind_ret. destruct res1 as [[]|].
        -- specialize (IH fuel rest' (before ++ w) e1 rows1 buf (if nl then cnt else 0) s1 I1).
           rewrite <- app_assoc, <- ER in IH. specialize (IH HH HL).
           rewrite app_length, num_vals_app, HW in IH. specialize (IH ltac:(lia)).
           assert (HV' : nl = true -> (if nl then cnt else 0) = length before + length w) by (unfold cnt; intros ->; reflexivity).
           specialize (IH HV'). unfold rest' in IH. rewrite num_drop in IH. fold rest' in IH. specialize (IH ltac:(lia) ltac:(lia)).
           replace (num_vals before + k) with q in IH by lia. exact IH.
        -- exists e1. split; [reflexivity|exact I1].
      * rewrite PW. reflexivity.
  - (* the rest is held back *)
    apply fill_none in EF. cbn [fst snd bind bc_size bc_start bc_end]. destruct (N.ltb_spec (N.of_nat (cbytes (somes rest))) B); [|lia].
    unfold outcome_as. cbn [bemits].
    pose proof (be_inv_len _ _ _ _ _ _ HI) as (HL0 & HN0 & HLa & HBy).
    assert (ER : rest = trim rest ++ drop_vals (num_vals rest) rest) by (symmetry; apply take_drop).
    assert (HA : rows_allowed nl (trim rest)).
    { apply bb_holds_allowed in HH. apply allowed_app in HH. apply allowed_take. tauto. }
    assert (ET : somes (trim rest) = somes rest) by (unfold trim; rewrite take_somes; apply firstn_all).
    pose proof (bb_append_from_eq p (be_remaining e) buf nl before (trim rest) (drop_vals (num_vals rest) rest)) as PA.
    rewrite <- ER in PA. specialize (PA HH HN0 (trim_ends rest)).
    rewrite HD, HBy in PA. fold items in PA. fold (cbytes items) in PA. specialize (PA HL).
    rewrite HBy in HLa. specialize (PA HLa). rewrite ET in PA. fold (cbytes (somes rest)) in PA. change (bytes_of []) with 0 in PA.
    specialize (PA ltac:(lia)). rewrite app_length in PA. specialize (PA ltac:(unfold u64_lim; lia)).
    fold (num_vals before) (num_vals rest) in PA. rewrite LI.
    assert (EQ : bb_append_from p (be_remaining e) buf (num_vals before) (num_vals before + num_vals rest) vp
               = bb_append_from p (be_remaining e) buf (num_vals before) (num_vals before + num_vals rest) (length before)).
    { destruct nl; [rewrite HV by reflexivity; reflexivity|]. eapply bvalidity_pos_irrelevant; eauto. }
    rewrite EQ, PA.
    destruct (be_inv_extend B nl e past [] rows (trim rest) HI HA (trim_ends rest)) as (b & -> & I').
    { unfold bytes_of at 2. rewrite ET. fold (cbytes (somes rest)). change (bytes_of []) with 0. lia. }
    rewrite !bind_ret. cbn [fst]. eexists; split; [reflexivity|exact I'].
Qed.

(** A failed write of completed held back rows leaves them in place. *)
Definition failed (B : N) (nl : bool) (past past' : list (list row)) (R b : list row) (e : bin_enc) (rows : N) : Prop :=
  be_inv B nl e past' [] rows
  \/ exists k, R <> [] /\ fill (B - N.of_nat (bytes_of R)) (somes b) = Some k /\ be_inv B nl e past (R ++ take_vals k b) rows.

Lemma bytes_app (a b : list row) : bytes_of (a ++ b) = bytes_of a + bytes_of b.
Proof. unfold bytes_of. rewrite somes_app, concat_app, app_length. reflexivity. Qed.

Lemma bytes_take_drop k (b : list row) : bytes_of (take_vals k b) + bytes_of (drop_vals k b) = bytes_of b.
Proof. rewrite <- bytes_app, take_drop. reflexivity. Qed.

Lemma be_encode_ok B nl past fuel e R rows buf b s : (0 < B)%N ->
  be_inv B nl e past R rows -> (N.of_nat (bytes_of R) < B)%N -> bb_holds buf nl b ->
  (B + N.of_nat (bytes_of b) <= u32_max)%N -> (N.of_nat (length R + length b) <= 2 ^ 32 - 2)%N -> num_vals b < fuel ->
  let r := bin_step p nl B past R b in
  outcome_as B nl (fst r) rows (fst (snd r)) (snd (snd r)) s (be_encode wr p fuel e buf s) (failed B nl past (fst r) R b).
Proof.
  intros HB HI HRB HH HL HRows Hf. change (2 ^ 32 - 2)%N with 4294967294%N in HRows. unfold be_encode, bin_step.
  pose proof (be_inv_len _ _ _ _ _ _ HI) as (HL0 & HN0 & HLa & HBy). rewrite HL0.
  destruct R as [|x R0].
  - change (0 <? num_vals (@nil row)) with false. cbn iota zeta. cbn [fst snd].
    pose proof (be_loop_ok B nl past ltac:(unfold u32_max in *; lia) (Datatypes.S (num_vals b)) fuel b [] e rows buf 0 s HI HH) as PL.
    change (2 ^ 32 - 2)%N with 4294967294%N in PL. cbn [app length] in PL.
    specialize (PL ltac:(lia) ltac:(lia) (fun _ => eq_refl) ltac:(lia) ltac:(lia)). cbn zeta in PL.
    change (num_vals (@nil row)) with 0 in PL. cbn [length] in PL. unfold outcome_as in *.
    destruct (bemits nl rows _ s) as [[[rows' s'] [[]|]]|k|]; auto.
    destruct PL as (e' & E & I'). exists e'. split; [exact E|]. left. exact I'.
  - assert (HE : ends_some (x :: R0)) by apply HI. set (R := x :: R0) in *. assert (HN : R <> []) by discriminate.
    change (match R with [] => ?a | _ => ?c end) with c. clearbody R. clear x R0.
    pose proof (nonempty_num R HE HN) as HP. destruct (Nat.ltb_spec 0 (num_vals R)); [|lia]. cbn zeta.
    assert (HM : be_min e = B) by apply HI. rewrite HM, HBy, sub64_ok by lia. rewrite bind_ret.
    pose proof HH as (HD & HO & HS).
    assert (HCB : (N.of_nat (cbytes (somes b)) <= u32_max)%N) by (change (cbytes (somes b)) with (bytes_of b); lia).
    rewrite (be_chunk_ok p buf (somes b) 0 _ HO ltac:(lia) HCB). cbn [skipn firstn]. cbn zeta.
    assert (HAb : rows_allowed nl b) by (apply bb_holds_allowed in HH; exact HH).
    destruct (fill (B - N.of_nat (bytes_of R)) (somes b)) as [k|] eqn:EF.
    + pose proof (fill_some _ _ _ EF) as (F1 & F2 & _). fold (num_vals b) in F1.
      rewrite sub64_ok by lia. cbn [bind bc_start bc_end].
      set (w := take_vals k b) in *. set (b' := drop_vals k b) in *.
      assert (HW : num_vals w = k) by (unfold w; rewrite num_take; lia).
      assert (HWE : ends_some w) by (apply take_ends; lia).
      assert (ER : b = w ++ b') by (symmetry; apply take_drop).
      assert (HWB : cbytes (firstn k (somes b)) = bytes_of w) by (unfold bytes_of, w; rewrite take_somes; reflexivity).
      assert (HBB : bytes_of b = bytes_of w + bytes_of b') by (rewrite ER at 1; apply bytes_app).
      assert (LBB : length b = length w + length b') by (rewrite ER at 1; apply app_length).
      assert (HWA : rows_allowed nl w) by (apply allowed_take; exact HAb).
      pose proof (bb_append_from_eq p (be_remaining e) buf nl [] w b') as PA. cbn [app] in PA. rewrite <- ER in PA.
      specialize (PA HH HN0 HWE). rewrite HD in PA. fold (cbytes (somes b)) in PA. specialize (PA HCB HLa).
      rewrite HBy in PA. fold (bytes_of w) in PA. specialize (PA ltac:(lia) ltac:(unfold u64_lim; lia)).
      cbn [somes length Nat.add] in PA. fold (num_vals w) in PA. rewrite HW in PA. rewrite PA. clear PA.
      destruct (be_inv_extend B nl e past R rows w HI HWA HWE) as (rb & -> & I'); [lia|]. rewrite !bind_ret. cbn [fst snd].
      pose proof (be_inv_len _ _ _ _ _ _ I') as (HL1 & HN1 & HLa1 & HBy1). rewrite HBy1, bytes_app.
      cbn [be_min be_set_remaining]. rewrite HM.
      destruct (N.ltb_spec (N.of_nat (bytes_of R + bytes_of w)) B) as [X|_]; [lia|].
      assert (HNN : R ++ w <> []) by (destruct R; [congruence|discriminate]).
      pose proof (be_write_remaining_ok B nl (be_set_remaining e rb) past (R ++ w) rows s I' HNN) as PW.
      change (2 ^ 32)%N with 4294967296%N in PW. rewrite bytes_app, app_length in PW. specialize (PW ltac:(lia) ltac:(lia)). cbn zeta in PW.
      unfold outcome_as. change (mk_item ?c ?d [] :: ?l) with ([mk_item c d []] ++ l). rewrite bemits_app. unfold sink_fn in *.
      destruct (bemits nl rows [_] s) as [[[rows1 s1] res1]|k1|]; cbn [bind]; [| |contradiction].
      * destruct PW as (e1 & v & -> & I1 & R1). rewrite bind_ret. destruct res1 as [[]|].
        -- pose proof (be_loop_ok B nl ((R ++ w) :: past) ltac:(unfold u32_max in *; lia) (Datatypes.S (num_vals b)) fuel b' w
             _ rows1 buf (if nl then length w else num_vals w) s1 (be_inv_clear _ _ _ _ _ _ I1)) as PL.
           change (2 ^ 32 - 2)%N with 4294967294%N in PL. rewrite <- ER in PL.
           assert (NB : num_vals b' = num_vals b - k) by apply num_drop.
           specialize (PL HH ltac:(lia) ltac:(lia)).
           assert (HVP : nl = true -> (if nl then length w else num_vals w) = length w) by (intros ->; reflexivity).
           specialize (PL HVP ltac:(lia) ltac:(lia)). cbn zeta in PL. rewrite HW in PL. unfold outcome_as in PL.
           destruct (bemits nl rows1 _ s1) as [[[rows' s'] [[]|]]|k'|]; auto.
           destruct PL as (e' & E & I2). exists e'. split; [exact E|]. left. exact I2.
        -- exists e1. split; [reflexivity|]. right. exists k. auto.
      * rewrite PW. reflexivity.
    + apply fill_none in EF. cbn [fst snd bind bc_start bc_end]. change (cbytes (somes b)) with (bytes_of b) in *.
      assert (ER : b = trim b ++ drop_vals (num_vals b) b) by (symmetry; apply take_drop).
      assert (ET : somes (trim b) = somes b) by (unfold trim; rewrite take_somes; apply firstn_all).
      assert (HTB : bytes_of (trim b) = bytes_of b) by (unfold bytes_of; rewrite ET; reflexivity).
      assert (HTA : rows_allowed nl (trim b)) by (apply allowed_take; exact HAb).
      pose proof (bb_append_from_eq p (be_remaining e) buf nl [] (trim b) (drop_vals (num_vals b) b)) as PA. cbn [app] in PA. rewrite <- ER in PA.
      specialize (PA HH HN0 (trim_ends b)). rewrite HD in PA. change (length (concat (somes b))) with (bytes_of b) in PA. specialize (PA HCB HLa).
      rewrite HBy in PA. fold (bytes_of (trim b)) in PA. rewrite HTB, ET in PA. specialize (PA ltac:(lia) ltac:(unfold u64_lim; lia)).
      cbn [somes length Nat.add] in PA. rewrite PA. clear PA.
      destruct (be_inv_extend B nl e past R rows (trim b) HI HTA (trim_ends b)) as (rb & -> & I'); [lia|]. rewrite !bind_ret. cbn [fst snd].
      pose proof (be_inv_len _ _ _ _ _ _ I') as (_ & _ & _ & HBy1). rewrite HBy1, bytes_app, HTB. cbn [be_min be_set_remaining]. rewrite HM.
      destruct (N.ltb_spec (N.of_nat (bytes_of R + bytes_of b)) B) as [_|X]; [|lia].
      unfold outcome_as. cbn [bemits]. eexists; split; [reflexivity|exact I'].
Qed.

(** The block a flush writes. *)
Definition bin_last (nl : bool) (past : list (list row)) (R : list row) : list bin_item :=
  match R with [] => [] | _ => [mk_item (length (seen nl past R)) (seen nl past R) []] end.

Lemma be_flush_ok B nl e past R rows s :
  be_inv B nl e past R rows -> (N.of_nat (bytes_of R) <= u32_max)%N -> (N.of_nat (length R) <= 2 ^ 32)%N ->
  match bemits nl rows (bin_last nl past R) s with
  | Ret (rows', s', res) => exists e', be_flush wr p e s = Ret (e', s', res) /\ be_inv B nl e' past R rows'
  | Panic k => be_flush wr p e s = Panic k
  | NoFuel => False
  end.
Proof.
  intros HI HL HRows. unfold be_flush. pose proof (be_inv_len _ _ _ _ _ _ HI) as (HL0 & _). rewrite HL0. destruct R as [|x R0].
  - cbn [num_vals somes length Nat.ltb Nat.leb bin_last bemits]. eexists; split; [reflexivity|exact HI].
  - assert (HE : ends_some (x :: R0)) by apply HI. set (R := x :: R0) in *. assert (HN : R <> []) by discriminate.
    change (bin_last nl past R) with [mk_item (length (seen nl past R)) (seen nl past R) []]. clearbody R. clear x R0.
    pose proof (nonempty_num R HE HN) as HP. destruct (Nat.ltb_spec 0 (num_vals R)); [|lia].
    pose proof (be_write_remaining_ok B nl e past R rows s HI HN HL HRows) as PW. cbn zeta in PW. unfold sink_fn in *.
    destruct (bemits nl rows [_] s) as [[[rows1 s1] res1]|k1|]; [| |contradiction].
    + destruct PW as (e1 & v & -> & I1 & R1). rewrite bind_ret. eexists; split; [|exact I1]. destruct res1 as [[]|]; reflexivity.
    + rewrite PW. reflexivity.
Qed.

End Enc.
