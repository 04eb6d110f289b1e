(** Properties C34, C35 and C37: rows, panics and row identifiers of binary columns
    (raw/binary_enc.rs). *)
From Verif Require Import Base BaseProofs Spec SpecRows SpecBin Varint VarintProofs Buffers Observe BitmapProofs BuffersProofs
  Rle RleProofs Offsets OffsetsProofs Sink BinEnc ObserveEnc ReadBlock ReadBinBlock RowsProofs BlockProofs PrimRunProofs
  PropsPrimIds BinBlockProofs BinEncProofs BinRunProofs PropsBin.
Open Scope nat_scope.

(** ** Reading blocks back *)

Lemma split_items_back items : forall rest, split_items (map (fun v => N.of_nat (length v)) items) (concat items ++ rest) = items.
Proof.
  induction items as [|v items IH]; intros rest; cbn [map split_items concat]; [reflexivity|].
  rewrite Nat2N.id, <- app_assoc, firstn_app_exact, skipn_app_exact, IH. reflexivity.
Qed.

Lemma sum_lens items : fold_right N.add 0%N (map (fun v : list N => N.of_nat (length v)) items) = N.of_nat (cbytes items).
Proof. induction items as [|v items IH]; [reflexivity|]. cbn [map fold_right]. rewrite IH. unfold cbytes. cbn [concat]. rewrite app_length. lia. Qed.

(** The encoded lengths of [items] can be read back (C24 says when). *)
Definition lens_readable (items : list (list N)) : Prop :=
  let lens := map (fun v => N.of_nat (length v)) items in
  exists padded b bytes, off_encode Debug lens [] = Ret (padded, N.of_nat b :: bytes) /\ off_read (length items) b bytes = lens.

Lemma read_bin_block p nl R : rows_allowed nl R -> ends_some R -> 1 <= num_vals R <= 128 ->
  (N.of_nat (length R) <= 2 ^ 32 - 8)%N -> (N.of_nat (bytes_of R) < u64_lim)%N ->
  lens_readable (somes R) ->
  read_binary_block p nl (num_vals R) (bin_block nl R []) = Ret (Ok R).
Proof.
  intros HA HE HN HL HB HR. unfold read_binary_block, bin_block. cbn [length]. rewrite Nat.add_0_r.
  rewrite decode_varint_bytes by exact HB. rewrite bind_ret. cbn [app]. rewrite Nat2N.id.
  set (a := varint_bytes _). set (v := if nl then _ else _). change (bytes_of R) with (length (concat (somes R))) in *.
  set (lens := map (fun v => N.of_nat (length v)) (somes R)) in *.
  assert (LL : length lens = num_vals R) by (unfold lens; rewrite map_length; reflexivity).
  rewrite slice_ok by (rewrite ?app_length; lia). rewrite bind_ret.
  replace (length a + length (concat (somes R)) - length a) with (length (concat (somes R))) by lia.
  rewrite (skipn_app_exact a), firstn_app_exact. rewrite <- app_length, app_assoc, skipn_app_exact.
  unfold lens_bytes. fold lens. cbn [app]. rewrite Nat2N.id.
  set (packed := firstn _ (bp_pack _ _)).
  assert (LP : length packed = (width lens * num_vals R + 7) / 8).
  { unfold packed. rewrite firstn_length, bp_pack_length. rewrite LL. fold (nceil8 (width lens * num_vals R)).
    rewrite Nat.min_l; [reflexivity|]. unfold nceil8.
    enough ((width lens * num_vals R + 7) / 8 < 16 * width lens + 1) by lia. apply Nat.div_lt_upper_bound; [lia|]. nia. }
  rewrite <- LP, firstn_app_exact, skipn_app_exact.
  assert (EL : firstn (num_vals R) (bp_unpack packed (width lens)) = lens).
  { destruct HR as (pl & b & bytes & E1 & E2). fold lens in E1, E2. rewrite off_encode_ok in E1 by (rewrite LL; exact HN).
    injection E1 as _ Eb Ey. apply Nat2N.inj in Eb. rewrite <- Eb, <- Ey in E2. exact E2. }
  rewrite EL. unfold lens at 1. rewrite sum_lens. change (cbytes (somes R)) with (length (concat (somes R))). rewrite N.eqb_refl.
  replace (split_items lens (concat (somes R))) with (somes R).
  - apply read_rows_back; [exact HA|exact HE|]. intros _. exact HL.
  - symmetry. rewrite <- (app_nil_r (concat (somes R))). apply split_items_back.
Qed.

(** ** Buffers with no more data than a block *)

Lemma step_small p nl B past R b : (0 < B)%N -> ends_some R -> (N.of_nat (bytes_of R) < B)%N -> (N.of_nat (bytes_of b) <= B)%N ->
  bin_step p nl B past R b = (past, ([], Held (R ++ trim b)))
  \/ exists k past' w, k <= num_vals b /\ 0 < k
       /\ bin_step p nl B past R b = (past', ([mk_item (length w) w []], Held (trim (drop_vals k b))))
       /\ (w = R ++ take_vals k b \/ R <> [] /\ w = seen nl past (R ++ take_vals k b))
       /\ ends_some (R ++ take_vals k b)
       /\ (forall j, j < k -> (N.of_nat (cbytes (firstn j (somes b))) + N.of_nat (bytes_of R) < B)%N)
       /\ (B <= N.of_nat (bytes_of (R ++ take_vals k b)))%N.
Proof.
  intros HB HE HR Hb. unfold bin_step.
  assert (CUT : forall f s pos rest, (N.of_nat (bytes_of rest) < B)%N -> bin_cut p nl (S f) B s pos rest = ([], Held (trim rest))).
  { intros f s pos rest H. cbn [bin_cut]. replace (fill B (somes rest)) with (@None nat) by (symmetry; apply fill_none_iff; exact H). reflexivity. }
  assert (TE : forall k, 0 < k <= num_vals b -> ends_some (R ++ take_vals k b)).
  { intros k Hk. apply ends_app; [apply take_ends; lia|]. intros E. pose proof (num_take k b) as NT. rewrite E in NT. cbn in NT. lia. }
  destruct R as [|x R0].
  - destruct (fill B (somes b)) as [k|] eqn:EF.
    + right. pose proof (fill_pos _ _ _ EF HB) as KP. destruct (fill_some _ _ _ EF) as (K1 & K2 & K3).
      exists k, past, (take_vals k b). split; [exact K1|]. split; [exact KP|]. cbn [app].
      assert (TD : bytes_of (take_vals k b) + bytes_of (drop_vals k b) = bytes_of b) by (apply bytes_take_drop).
      assert (TK : bytes_of (take_vals k b) = cbytes (firstn k (somes b))) by (unfold bytes_of; rewrite take_somes; reflexivity).
      split.
      * destruct (num_vals b) as [|m] eqn:EN; [unfold num_vals in EN; lia|].
        cbn [bin_cut]. rewrite EF. destruct (Nat.leb_spec k 0); [lia|]. rewrite Nat.sub_0_r. cbn [Nat.add firstn concat].
        cbn zeta. fold (bin_cut p nl). change (match fill B (somes (drop_vals k b)) with
          | Some _ => _ | None => _ end) with (bin_cut p nl (S m) B k (length (take_vals k b)) (drop_vals k b)).
        rewrite CUT by lia. cbn [fst snd]. destruct nl; reflexivity.
      * split; [left; reflexivity|]. split; [apply TE; split; [exact KP|exact K1]|]. split; [|rewrite TK; exact K2].
        intros j Hj. specialize (K3 j Hj). cbn. lia.
    + left. rewrite CUT by (apply fill_none in EF; exact EF). reflexivity.
  - set (R := x :: R0) in *. destruct (fill (B - N.of_nat (bytes_of R)) (somes b)) as [k|] eqn:EF; [|left; reflexivity].
    right. pose proof (fill_pos _ _ _ EF ltac:(lia)) as KP. destruct (fill_some _ _ _ EF) as (K1 & K2 & K3).
    exists k. eexists. exists (seen nl past (R ++ take_vals k b)). split; [exact K1|]. split; [exact KP|].
    assert (TD : bytes_of (take_vals k b) + bytes_of (drop_vals k b) = bytes_of b) by (apply bytes_take_drop).
    assert (TK : bytes_of (take_vals k b) = cbytes (firstn k (somes b))) by (unfold bytes_of; rewrite take_somes; reflexivity).
    cbn zeta. rewrite CUT by lia. split; [reflexivity|].
    split; [right; split; [discriminate|reflexivity]|]. split; [apply TE; split; [exact KP|exact K1]|]. split.
    + intros j Hj. specialize (K3 j Hj). lia.
    + rewrite bytes_app, TK. lia.
Qed.

(** No null rows. *)
Definition full {T} (rows : list (option T)) : Prop := Forall (fun r => is_some r = true) rows.

Lemma full_trim {T} (rows : list (option T)) : full rows -> trim rows = rows.
Proof.
  unfold trim, num_vals. induction 1 as [|[v|] rows H _ IH]; [reflexivity| |discriminate]. cbn [somes length take_vals]. f_equal. exact IH.
Qed.
Lemma full_app {T} (a b : list (option T)) : full (a ++ b) <-> full a /\ full b.
Proof. apply Forall_app. Qed.
Lemma full_ends {T} (rows : list (option T)) : full rows -> ends_some rows.
Proof. intros H. rewrite <- (full_trim rows H). apply trim_ends. Qed.
Lemma full_seen nl past (R : list row) : full R -> seen nl past R = R.
Proof.
  intros H. rewrite display_seen. destruct nl; [|reflexivity]. unfold display. generalize 0.
  induction H as [|[v|] R H _ IH]; intros k; [reflexivity| |discriminate]. cbn [validity_of map is_some stale_or orb somes place]. f_equal. apply IH.
Qed.

Lemma seen_allowed nl past (R : list row) : ends_some R -> rows_allowed nl R -> rows_allowed nl (seen nl past R).
Proof. intros HE. apply (seen_spec nl past R HE). Qed.

Lemma dense_count L (items : list (list N)) : Forall (fun v => L <= N.of_nat (length v))%N items ->
  (N.of_nat (length items) * L <= N.of_nat (cbytes items))%N.
Proof. induction 1 as [|v items H _ IH]; [cbn; lia|]. unfold cbytes in *. cbn [concat length]. rewrite app_length. nia. Qed.

Lemma Forall_firstn {T} (P : T -> Prop) n l : Forall P l -> Forall P (firstn n l).
Proof. rewrite <- (firstn_skipn n l) at 1. rewrite Forall_app. tauto. Qed.
Lemma Forall_skipn {T} (P : T -> Prop) n l : Forall P l -> Forall P (skipn n l).
Proof. rewrite <- (firstn_skipn n l) at 1. rewrite Forall_app. tauto. Qed.

Lemma somes_trim {T} (b : list (option T)) : somes (trim b) = somes b.
Proof. unfold trim. rewrite take_somes. unfold num_vals. apply firstn_all. Qed.

(** What can be said about every block of such a history. *)
Definition good_block (B : N) (nl : bool) (it : bin_item) : Prop :=
  it_extra it = [] /\ it_count it = length (it_rows it) /\ ends_some (it_rows it) /\ 0 < num_vals (it_rows it)
  /\ rows_allowed nl (it_rows it) /\ (B <= N.of_nat (bytes_of (it_rows it)))%N /\ (N.of_nat (bytes_of (it_rows it)) < 2 * B)%N.

Lemma run_small p nl B : (0 < B)%N -> forall rowss past R, ends_some R -> (N.of_nat (bytes_of R) < B)%N -> rows_allowed nl R ->
  Forall (rows_allowed nl) rowss ->
  Forall (fun b => N.of_nat (bytes_of b) <= B)%N rowss ->
  exists past' its R', bin_run p nl B past R rowss = (past', (its, Held R'))
    /\ ends_some R' /\ (N.of_nat (bytes_of R') < B)%N /\ rows_allowed nl R'
    /\ Forall (good_block B nl) its
    /\ concat (map (fun it => somes (it_rows it)) its) ++ somes R' = somes R ++ somes (concat rowss)
    /\ (length (concat (map it_rows its)) + length R' <= length R + length (concat rowss))
    /\ (full R -> Forall full rowss -> concat (map it_rows its) ++ R' = R ++ concat rowss)
    /\ (forall L, (0 < L)%N -> (B <= 128 * L)%N -> Forall (fun v => L <= N.of_nat (length v))%N (somes R ++ somes (concat rowss)) ->
          Forall (fun it => num_vals (it_rows it) <= 128) its).
Proof.
  intros HB. induction rowss as [|b rowss IH]; intros past R HE HR HA HAs HF.
  - exists past, [], R. cbn [bin_run map concat app length somes]. rewrite !app_nil_r.
    split; [reflexivity|]. split; [exact HE|]. split; [exact HR|]. split; [exact HA|]. split; [constructor|].
    split; [reflexivity|]. split; [lia|]. split; [reflexivity|]. intros; constructor.
  - apply Forall_cons_iff in HF. destruct HF as [HF1 HF2]. apply Forall_cons_iff in HAs. destruct HAs as [HA1 HA2]. cbn [bin_run concat].
    destruct (step_small p nl B past R b HB HE HR HF1) as [ES|(k & past1 & w & K1 & K0 & ES & HW & WE & KJ & KB)]; rewrite ES.
    + pose proof (bin_step_held p nl B past R b past [] _ HE ES HR) as (A1 & A2 & A3 & A4).
      destruct (IH past (R ++ trim b) A2 A1 (A4 HA HA1) HA2 HF2) as (past' & its & R' & E & C1 & C2 & C3 & C4 & C5 & C6 & C7 & C8).
      rewrite E. cbn [fst snd app]. exists past', its, R'. split; [reflexivity|]. split; [exact C1|]. split; [exact C2|]. split; [exact C3|].
      split; [exact C4|]. rewrite !somes_app, somes_trim in *. split; [rewrite C5, <- app_assoc; reflexivity|].
      rewrite !app_length in *. pose proof (trim_length b). split; [lia|]. split.
      * intros F1 F2. apply Forall_cons_iff in F2. destruct F2 as [F2 F3]. rewrite (full_trim b F2) in C7.
        rewrite C7; [rewrite <- app_assoc; reflexivity|apply full_app; split; assumption|exact F3].
      * intros L HL HBL HD. apply (C8 L HL HBL). rewrite <- app_assoc. exact HD.
    + pose proof (bin_step_held p nl B past R b past1 _ _ HE ES HR) as (A1 & A2 & A3 & A4).
      destruct (IH past1 _ A2 A1 (A4 HA HA1) HA2 HF2) as (past' & its & R' & E & C1 & C2 & C3 & C4 & C5 & C6 & C7 & C8).
      rewrite E. cbn [fst snd app]. eexists past', _, R'. split; [reflexivity|]. split; [exact C1|]. split; [exact C2|]. split; [exact C3|].
      assert (WS : somes w = somes R ++ firstn k (somes b) /\ ends_some w /\ length w <= length R + length (take_vals k b)
                   /\ rows_allowed nl w).
      { rewrite <- take_somes, <- somes_app, <- app_length.
        assert (AA : rows_allowed nl (R ++ take_vals k b)) by (apply allowed_app; split; [exact HA|apply allowed_take, HA1]).
        destruct HW as [->|[_ ->]]; [auto|]. destruct (seen_spec nl past _ WE) as (S1 & S2 & S3 & S4). auto. }
      destruct WS as (W1 & W2 & W3 & W4).
      assert (BW : bytes_of w = bytes_of (R ++ take_vals k b)) by (unfold bytes_of; rewrite W1, somes_app, take_somes; reflexivity).
      assert (NW : num_vals w = num_vals R + k).
      { unfold num_vals in *. rewrite W1, app_length, firstn_length. lia. }
      split.
      { constructor; [|exact C4]. split; [reflexivity|]. split; [reflexivity|]. cbn [it_rows]. split; [exact W2|]. split; [lia|]. split; [exact W4|].
        rewrite BW. split; [exact KB|]. rewrite bytes_app. pose proof (bytes_take_drop k b). lia. }
      cbn [map concat it_rows].
      rewrite somes_trim, drop_somes in C5. split.
      { rewrite W1, somes_app. rewrite <- app_assoc, C5, <- app_assoc. rewrite (app_assoc (firstn k _)), firstn_skipn. reflexivity. }
      pose proof (drop_length k b) as DL. pose proof (trim_length (drop_vals k b)) as TL.
      split; [rewrite !app_length; lia|]. split.
      { intros F1 F2. apply Forall_cons_iff in F2. destruct F2 as [F2 F3].
        pose proof F2 as F2'. rewrite <- (take_drop k b) in F2'. apply full_app in F2'. destruct F2' as [FT FD].
        assert (EW : w = R ++ take_vals k b).
        { destruct HW as [HW|[_ HW]]; [exact HW|]. rewrite HW. apply full_seen, full_app. split; assumption. }
        rewrite (full_trim _ FD) in C7. rewrite <- app_assoc, C7 by assumption. rewrite EW, <- app_assoc.
        rewrite (app_assoc (take_vals k b)), take_drop. reflexivity. }
      intros L HL HBL HD. constructor.
      { cbn [it_rows]. rewrite NW. rewrite somes_app, app_assoc in HD. apply Forall_app in HD. destruct HD as [HD _].
        apply Forall_app in HD. destruct HD as [HD1 HD2]. specialize (KJ (k - 1) ltac:(lia)).
        pose proof (dense_count L (somes R) HD1) as D1. pose proof (dense_count L _ (Forall_firstn _ (k - 1) _ HD2)) as D2.
        rewrite firstn_length in D2. unfold num_vals in *. replace (Nat.min (k - 1) (length (somes b))) with (k - 1) in D2 by lia.
        change (cbytes (somes R)) with (bytes_of R) in D1. nia. }
      apply (C8 L HL HBL). rewrite somes_trim, drop_somes. rewrite somes_app in HD. apply Forall_app in HD. destruct HD as [_ HD].
      apply Forall_app in HD. destruct HD as [HD2 HD3]. apply Forall_app. split; [apply Forall_skipn, HD2|exact HD3].
Qed.

Lemma blocks_small p nl B rowss : (0 < B)%N -> Forall (rows_allowed nl) rowss -> Forall (fun b => N.of_nat (bytes_of b) <= B)%N rowss ->
  exists its, bin_blocks p nl B rowss = (its, None)
    /\ Forall (fun it => it_extra it = [] /\ it_count it = length (it_rows it) /\ ends_some (it_rows it) /\ 0 < num_vals (it_rows it)
                 /\ rows_allowed nl (it_rows it) /\ (N.of_nat (bytes_of (it_rows it)) < 2 * B)%N) its
    /\ concat (map (fun it => somes (it_rows it)) its) = somes (concat rowss)
    /\ length (concat (map it_rows its)) <= length (concat rowss)
    /\ (Forall full rowss -> concat (map it_rows its) = concat rowss)
    /\ (forall L, (0 < L)%N -> (B <= 128 * L)%N -> Forall (fun v => L <= N.of_nat (length v))%N (somes (concat rowss)) ->
          Forall (fun it => num_vals (it_rows it) <= 128) its).
Proof.
  intros HB HA HF.
  assert (HN : rows_allowed nl (@nil row)) by (right; constructor).
  destruct (run_small p nl B HB rowss [] [] ltac:(left; reflexivity) ltac:(cbn; lia) HN HA HF)
    as (past & its & R & E & C1 & C2 & C3 & C4 & C5 & C6 & C7 & C8).
  unfold bin_blocks. rewrite E. cbn [fst snd]. eexists. split; [reflexivity|].
  cbn [somes app length Nat.add] in *.
  assert (LB : exists w, bin_last nl past R = match R with [] => [] | _ => [mk_item (length w) w []] end
     /\ somes w = somes R /\ ends_some w /\ length w <= length R /\ rows_allowed nl w /\ (full R -> w = R)).
  { exists (seen nl past R). split; [destruct R; reflexivity|]. destruct (seen_spec nl past R C1) as (S1 & S2 & S3 & S4).
    split; [exact S1|]. split; [exact S2|]. split; [exact S3|]. split; [exact (S4 C3)|]. apply full_seen. }
  destruct LB as (w & -> & W1 & W2 & W3 & W4 & W5).
  assert (BW : bytes_of w = bytes_of R) by (unfold bytes_of; rewrite W1; reflexivity).
  assert (NW : num_vals w = num_vals R) by (unfold num_vals; rewrite W1; reflexivity).
  split.
  { apply Forall_app. split.
    - eapply Forall_impl; [|exact C4]. intros it (G1 & G2 & G3 & G4 & G5 & G6 & G7). tauto.
    - destruct R as [|x R0] eqn:ER; [constructor|]. rewrite <- ER in *. constructor; [|constructor]. cbn [it_rows it_extra it_count].
      split; [reflexivity|]. split; [reflexivity|]. split; [exact W2|]. split; [rewrite NW; apply nonempty_num; [exact C1|congruence]|].
      split; [exact W4|]. lia. }
  split.
  { rewrite map_app, concat_app. rewrite <- C5. f_equal. destruct R as [|x R0] eqn:ER; [reflexivity|]. rewrite <- ER in *.
    cbn [map concat it_rows]. rewrite app_nil_r. exact W1. }
  split.
  { rewrite map_app, concat_app, app_length. destruct R as [|x R0] eqn:ER; [cbn [map concat length] in *; lia|]. rewrite <- ER in *.
    cbn [map concat it_rows]. rewrite app_nil_r. lia. }
  split.
  { intros HF2. specialize (C7 ltac:(constructor) HF2). rewrite map_app, concat_app, <- C7. f_equal.
    destruct R as [|x R0] eqn:ER; [reflexivity|]. rewrite <- ER in *. cbn [map concat it_rows]. rewrite app_nil_r. apply W5.
    assert (FC : full (concat rowss)).
    { clear -HF2. induction HF2 as [|r rowss H _ IH]; [constructor|]. cbn [concat]. apply full_app. auto. }
    rewrite <- C7 in FC. apply full_app in FC. tauto. }
  intros L HL HBL HD. apply Forall_app. split; [apply (C8 L HL HBL HD)|].
  destruct R as [|x R0] eqn:ER; [constructor|]. rewrite <- ER in *. constructor; [|constructor]. cbn [it_rows]. rewrite NW.
  rewrite <- C5 in HD. apply Forall_app in HD. destruct HD as [_ HD]. pose proof (dense_count L (somes R) HD) as D.
  unfold num_vals. change (cbytes (somes R)) with (bytes_of R) in D. nia.
Qed.

Lemma blabelled_ids nl its : Forall (fun it => it_count it = length (it_rows it)) its -> forall from,
  map fst (blabelled nl from its) = row_ids from (map (@length row) (map it_rows its)).
Proof.
  induction 1 as [|it its H _ IH]; intros from; cbn [blabelled map row_ids fst]; [reflexivity|]. rewrite H, IH. reflexivity.
Qed.

Lemma blabelled_forall2 nl (P : list row -> N * list N -> Prop) its : forall from,
  Forall (fun it => forall id, P (it_rows it) (id, bin_block nl (it_rows it) (it_extra it))) its ->
  Forall2 P (map it_rows its) (blabelled nl from its).
Proof.
  induction its as [|it its IH]; intros from H; cbn [map blabelled]; [constructor|].
  apply Forall_cons_iff in H. destruct H as [H1 H2]. constructor; [apply H1|apply IH, H2].
Qed.

Lemma concat_length_in {T} (l : list (list T)) x : In x l -> length x <= length (concat l).
Proof.
  induction l as [|y l IH]; [contradiction|]. cbn [concat]. rewrite app_length. intros [->|H]; [lia|]. specialize (IH H). lia.
Qed.

Lemma column_small p B nl rowss blocks res : (0 < B)%N -> Forall (rows_allowed nl) rowss ->
  Forall (fun rows => N.of_nat (length (concat (somes rows))) <= B /\ B + N.of_nat (length (concat (somes rows))) < 2 ^ 32)%N rowss ->
  (N.of_nat (length (concat rowss)) <= 2 ^ 32 - 8)%N ->
  be_column_rows p B nl rowss = Ret (blocks, res) ->
  exists ws, res = Ok tt
    /\ Forall2 (fun w block => layout p nl w [] (snd block)
                  /\ (lens_readable (somes w) -> read_binary_block p nl (length (somes w)) (snd block) = Ret (Ok w))) ws blocks
    /\ concat (map somes ws) = somes (concat rowss)
    /\ (Forall full rowss -> concat ws = concat rowss)
    /\ ids_right (map fst blocks) ws.
Proof.
  intros HB HA HF HL HE. change (2 ^ 32)%N with 4294967296%N in HF. change (2 ^ 32 - 8)%N with 4294967288%N in HL.
  assert (HF1 : Forall (fun b => N.of_nat (bytes_of b) <= B)%N rowss).
  { eapply Forall_impl; [|exact HF]. unfold bytes_of. cbn. intros; lia. }
  assert (HF2 : Forall (fun r => B + N.of_nat (bytes_of r) <= u32_max)%N rowss).
  { eapply Forall_impl; [|exact HF]. unfold u32_max, bytes_of. cbn. intros; lia. }
  assert (HL2 : (N.of_nat (sum_len rowss) <= 2 ^ 32 - 2)%N) by (change (2 ^ 32 - 2)%N with 4294967294%N; unfold sum_len; lia).
  pose proof (be_column_rows_ok p B nl rowss HB HA HF2 HL2) as BC. cbn zeta in BC.
  destruct (blocks_small p nl B rowss HB HA HF1) as (its & E & C1 & C2 & C3 & C4 & _). rewrite E in BC. cbn [fst snd] in BC.
  destruct (writable 0 its) eqn:EW; [|destruct BC as [k BC]; rewrite BC in HE; discriminate].
  rewrite BC in HE. injection HE as <- <-. exists (map it_rows its). split; [reflexivity|]. split; [|split; [|split; [exact C4|]]].
  - apply blabelled_forall2. unfold writable in EW. apply andb_true_iff in EW. destruct EW as [EW _].
    rewrite forallb_forall in EW. apply Forall_forall. intros it Hit id. cbn [snd].
    rewrite Forall_forall in C1. specialize (C1 it Hit). destruct C1 as (G1 & G2 & G3 & G4 & G5 & G7).
    specialize (EW it Hit). apply Nat.leb_le in EW.
    assert (LI : length (it_rows it) <= length (concat rowss)).
    { etransitivity; [|exact C3]. apply concat_length_in, in_map, Hit. }
    assert (B32 : (B < 4294967296)%N).
    { destruct rowss as [|r0 rowss]; [cbn in E; injection E as <-; contradiction|]. apply Forall_cons_iff in HF. lia. }
    rewrite G1. split.
    + apply bin_block_layout; [lia|change (2 ^ 32)%N with 4294967296%N; lia|cbn [length]; unfold u64_lim; lia].
    + intros HR. apply read_bin_block; [exact G5|exact G3|split; [exact G4|exact EW]|change (2 ^ 32 - 8)%N with 4294967288%N; lia|unfold u64_lim; lia|exact HR].
  - rewrite map_map. exact C2.
  - rewrite blabelled_ids by (eapply Forall_impl; [|exact C1]; cbn; tauto).
    assert (NE : Forall (fun w : list row => w <> []) (map it_rows its)).
    { apply Forall_map. eapply Forall_impl; [|exact C1]. cbn. intros it (_ & _ & _ & G & _) X. rewrite X in G. cbn in G. lia. }
    pose proof (ids_of_lengths _ NE 0%N) as [I1 I2]. split; [exact I1|]. intros i id Hi. rewrite (I2 i id Hi). lia.
Qed.

(** C34, what is kept: if no buffer has more data than a block, every item is in
    the blocks, in order, and the blocks are laid out as documented for it.
    Missing: nulls; larger buffers; reading the items back (see below). *)
Theorem C34_values_kept_partial :
  forall p B nl rowss blocks res, (0 < B)%N -> Forall (rows_allowed nl) rowss ->
  Forall (fun rows => N.of_nat (length (concat (somes rows))) <= B /\ B + N.of_nat (length (concat (somes rows))) < 2 ^ 32)%N rowss ->
  (N.of_nat (length (concat rowss)) <= 2 ^ 32 - 8)%N ->
  be_column_rows p B nl rowss = Ret (blocks, res) ->
  res = Ok tt
  /\ exists ws, Forall2 (fun w block => layout p nl w [] (snd block)) ws blocks
     /\ concat (map somes ws) = somes (concat rowss).
Proof.
  intros p B nl rowss blocks res H1 H2 H3 H4 H5. destruct (column_small p B nl rowss blocks res H1 H2 H3 H4 H5) as (ws & E1 & E2 & E3 & _).
  split; [exact E1|]. exists ws. split; [|exact E3]. clear -E2. induction E2; constructor; tauto.
Qed.
Print Assumptions C34_values_kept_partial.

(** C34 without nulls: if no buffer has more data than a block, the blocks hold
    exactly the rows, in order, and a block can be read back given its number of
    items, if the lengths of its items can.  Missing: nulls, larger buffers, the
    blocks whose lengths cannot be read back. *)
Theorem C34_rows_kept_partial :
  forall p B nl rowss blocks res, (0 < B)%N -> Forall full rowss ->
  Forall (fun rows => N.of_nat (length (concat (somes rows))) <= B /\ B + N.of_nat (length (concat (somes rows))) < 2 ^ 32)%N rowss ->
  (N.of_nat (length (concat rowss)) <= 2 ^ 32 - 8)%N ->
  be_column_rows p B nl rowss = Ret (blocks, res) ->
  exists ws, concat ws = concat rowss
    /\ Forall2 (fun w block => layout p nl w [] (snd block)
         /\ (lens_readable (somes w) -> read_binary_block p nl (length (somes w)) (snd block) = Ret (Ok w))) ws blocks.
Proof.
  intros p B nl rowss blocks res H1 HF H3 H4 H5.
  assert (H2 : Forall (rows_allowed nl) rowss).
  { eapply Forall_impl; [|exact HF]. intros r Hr. right. exact Hr. }
  destruct (column_small p B nl rowss blocks res H1 H2 H3 H4 H5) as (ws & _ & E2 & _ & E4 & _).
  exists ws. split; [exact (E4 HF)|exact E2].
Qed.
Print Assumptions C34_rows_kept_partial.

Example C34_witness :
  let rowss := [[Some [1; 2; 3]; Some [4]]; []; [Some [5; 5; 5]]; [Some [6; 7]; Some [8; 9]; Some []]]%N in
  let items := repeat (Some (repeat 7%N 200)) 16 in
  match be_column_rows Debug 4 false rowss with
  | Ret (blocks, Ok _) => blocks = [(1, [4; 1; 2; 3; 4; 2; 3]); (3, [5; 5; 5; 5; 6; 7; 2; 3]); (5, [2; 8; 9; 2; 2])]%N
  | _ => False end
  /\ match be_column_rows Debug 3200 true [items] with
     | Ret ([(15%N, block)], Ok _) => read_binary_block Debug true 16 block = Ret (Ok items)
     | _ => False end.
Proof. vm_compute. split; reflexivity. Qed.

(** C34 is false: different columns give the same blocks.  Nulls at the end of a
    buffer are dropped; nulls in held back rows vanish where the rows held back
    before had none; lengths are cut short; and once a buffer has enough data for
    a second block, items can be swapped for others. *)
Definition same_blocks (p : profile) (B : N) (nl : bool) (rowss1 rowss2 : list (list (option (list N)))) : Prop :=
  concat rowss1 <> concat rowss2
  /\ match be_column_rows p B nl rowss1, be_column_rows p B nl rowss2 with
     | Ret (blocks1, Ok _), Ret (blocks2, Ok _) => blocks1 = blocks2
     | _, _ => False end.

Theorem C34_rows_determined_refuted :
  forall p,
  same_blocks p 8 true [[Some [1]; None]; [Some [2]]]%N [[Some [1]]; [Some [2]; None]]%N
  /\ same_blocks p 4 true [[Some [1]]; [Some [2; 2; 2]]; [None; Some [3]]]%N [[Some [1]]; [Some [2; 2; 2]]; [Some [3]]]%N
  /\ same_blocks p 8 false [[Some [1; 2]; Some [3]; Some [4; 5]]]%N [[Some [1; 2]; Some [3; 4]; Some [5]]]%N.
Proof. intros []; unfold same_blocks; vm_compute; repeat split; discriminate. Qed.
Print Assumptions C34_rows_determined_refuted.

(** Items of a second block of the same buffer: the third block repeats data of
    the second, and the lengths of the second do not account for its data. *)
Theorem C34_items_repeated_refuted :
  match be_column_rows Debug 4 false [[Some [1; 1; 1; 1]; Some [2]; Some [3]; Some [4]; Some [5]]]%N with
  | Ret (blocks, Ok _) =>
      blocks = [(0, [4; 1; 1; 1; 1; 3; 4]); (3, [4; 2; 3; 4; 5; 1; 1]); (4, [1; 5; 1; 1])]%N
      /\ off_encode Debug [1; 1; 1]%N [] = Ret (padded [1; 1; 1]%N, [1; 1]%N)
  | _ => False end.
Proof. vm_compute. split; reflexivity. Qed.
Print Assumptions C34_items_repeated_refuted.

(** ** C37: row identifiers *)

(** C37 without nulls, if no buffer has more data than a block. *)
Theorem C37_row_ids_partial :
  forall p B nl rowss blocks res, (0 < B)%N -> Forall full rowss ->
  Forall (fun rows => N.of_nat (length (concat (somes rows))) <= B /\ B + N.of_nat (length (concat (somes rows))) < 2 ^ 32)%N rowss ->
  (N.of_nat (length (concat rowss)) <= 2 ^ 32 - 8)%N ->
  be_column_rows p B nl rowss = Ret (blocks, res) ->
  exists ws, concat ws = concat rowss /\ Forall2 (fun w block => layout p nl w [] (snd block)) ws blocks
    /\ ids_right (map fst blocks) ws.
Proof.
  intros p B nl rowss blocks res H1 HF H3 H4 H5.
  assert (H2 : Forall (rows_allowed nl) rowss).
  { eapply Forall_impl; [|exact HF]. intros r Hr. right. exact Hr. }
  destruct (column_small p B nl rowss blocks res H1 H2 H3 H4 H5) as (ws & _ & E2 & _ & E4 & E5).
  exists ws. split; [exact (E4 HF)|]. split; [|exact E5]. clear -E2. induction E2; constructor; tauto.
Qed.
Print Assumptions C37_row_ids_partial.

Example C37_witness :
  match be_column_rows Release 4 true [[Some [1]; Some [2; 2]]; [Some [3; 3; 3; 3]]; [Some []; Some [4]]]%N with
  | Ret (blocks, Ok _) => map fst blocks = [2; 4]%N
  | _ => False end.
Proof. vm_compute. reflexivity. Qed.

(** C37 is false: in a nullable column each block after the first of a buffer is
    counted from the start of the buffer, so this column of five rows has blocks
    ending at rows 4 and 5, the second of them with only four rows so far; and
    nulls at the end of a buffer are not counted. *)
Theorem C37_row_ids_refuted :
  match be_column_rows Release 4 true [[Some [1; 1; 1; 1]; Some [2]; Some [3]; Some [4]; Some [5]]]%N with
  | Ret (blocks, Ok _) => map fst blocks = [0; 4; 5]%N
  | _ => False end
  /\ match be_column_rows Release 4 true [[Some [1]; None; None]; [Some [2]]]%N with
     | Ret (blocks, Ok _) => map fst blocks = [1]%N
     | _ => False end.
Proof. vm_compute. split; reflexivity. Qed.
Print Assumptions C37_row_ids_refuted.

(** ** C35: panics *)

(** C35 if no buffer has more data than a block and items are not too small for
    the block size: [128 * L >= B] where every item has at least [L] bytes.  With
    the block size of 128 bytes that segments use, non-empty items are enough. *)
Theorem C35_returns_partial :
  forall p B L nl rowss, (0 < B)%N -> (0 < L)%N -> (B <= 128 * L)%N -> Forall (rows_allowed nl) rowss ->
  Forall (fun v => L <= N.of_nat (length v))%N (somes (concat rowss)) ->
  Forall (fun rows => N.of_nat (length (concat (somes rows))) <= B /\ B + N.of_nat (length (concat (somes rows))) < 2 ^ 32)%N rowss ->
  (N.of_nat (length (concat rowss)) <= 2 ^ 32 - 8)%N ->
  exists blocks, be_column_rows p B nl rowss = Ret (blocks, Ok tt).
Proof.
  intros p B L nl rowss HB HL HBL HA HD HF HT. change (2 ^ 32)%N with 4294967296%N in HF. change (2 ^ 32 - 8)%N with 4294967288%N in HT.
  assert (HF1 : Forall (fun b => N.of_nat (bytes_of b) <= B)%N rowss).
  { eapply Forall_impl; [|exact HF]. unfold bytes_of. cbn. intros; lia. }
  assert (HF2 : Forall (fun r => B + N.of_nat (bytes_of r) <= u32_max)%N rowss).
  { eapply Forall_impl; [|exact HF]. unfold u32_max, bytes_of. cbn. intros; lia. }
  assert (HL2 : (N.of_nat (sum_len rowss) <= 2 ^ 32 - 2)%N) by (change (2 ^ 32 - 2)%N with 4294967294%N; unfold sum_len; lia).
  pose proof (be_column_rows_ok p B nl rowss HB HA HF2 HL2) as BC. cbn zeta in BC.
  destruct (blocks_small p nl B rowss HB HA HF1) as (its & E & C1 & C2 & C3 & C4 & C5). rewrite E in BC. cbn [fst snd] in BC.
  replace (writable 0 its) with true in BC; [eexists; exact BC|]. symmetry. unfold writable. apply andb_true_iff. split.
  - apply forallb_forall. intros it Hit. apply Nat.leb_le. specialize (C5 L HL HBL HD). rewrite Forall_forall in C5. exact (C5 it Hit).
  - apply N.leb_le. assert (TE : total (map it_count its) = N.of_nat (length (concat (map it_rows its)))).
    { clear -C1. induction C1 as [|it its (_ & H & _) _ IH]; [reflexivity|]. cbn [map total fold_right concat].
      fold (total (map it_count its)). rewrite IH, H, app_length. lia. }
    rewrite TE. unfold u32_max. lia.
Qed.
Print Assumptions C35_returns_partial.

Example C35_witness :
  match be_column_rows Debug 128 true
    [repeat (Some [7]%N) 100; None :: repeat (Some [8]%N) 60; [Some (repeat 9%N 128)]] with
  | Ret (blocks, Ok _) => map fst blocks = [128; 161]%N
  | _ => False end.
Proof. vm_compute. reflexivity. Qed.

(** C35 is false, and not only for odd inputs: if [k] items of [n] bytes each
    fill a block, encoding a buffer with [2 * k] or more of them, and possibly
    other rows after them, always panics, in any build. *)
Theorem C35_second_block_panics_refuted :
  forall p B nl n k items more, (0 < B)%N ->
  (N.of_nat (k * n) < B + N.of_nat n)%N -> (B <= N.of_nat (k * n))%N ->
  length items = 2 * k -> Forall (fun v => length v = n) items ->
  let rows := map Some items ++ more in
  rows_allowed nl rows ->
  (B + N.of_nat (length (concat (somes rows))) < 2 ^ 32)%N -> (N.of_nat (length rows) <= 2 ^ 32 - 2)%N ->
  is_panic (be_column_rows p B nl [rows]).
Proof.
  intros p B nl n k items more HB HK1 HK2 HI HU rows HA HF HL. change (2 ^ 32)%N with 4294967296%N in HF.
  assert (HF2 : Forall (fun r => B + N.of_nat (bytes_of r) <= u32_max)%N [rows]).
  { constructor; [|constructor]. unfold u32_max, bytes_of. lia. }
  pose proof (be_column_rows_ok p B nl [rows] HB ltac:(constructor; [exact HA|constructor]) HF2) as BC.
  unfold sum_len in BC. cbn [concat] in BC. rewrite app_nil_r in BC. specialize (BC HL). cbn zeta in BC.
  assert (CU : forall l : list (list N), Forall (fun v => length v = n) l -> cbytes l = length l * n).
  { induction 1 as [|v l H _ IH]; [reflexivity|]. unfold cbytes in *. cbn [concat length]. rewrite app_length, IH, H. lia. }
  assert (SM : somes (map Some items) = items) by (clear; induction items; cbn; congruence).
  assert (FI : forall m, k <= length (skipn m items) -> fill B (skipn m items ++ somes more) = Some k).
  { intros m Hm. pose proof (Forall_skipn _ m _ HU) as HUm. apply fill_unique.
    - rewrite app_length. lia.
    - rewrite firstn_app. replace (k - length (skipn m items)) with 0 by lia. cbn [firstn]. rewrite app_nil_r.
      rewrite CU by (apply Forall_firstn, HUm). rewrite firstn_length. rewrite Nat.min_l by lia. exact HK2.
    - intros j Hj. rewrite firstn_app. replace (j - length (skipn m items)) with 0 by lia. cbn [firstn]. rewrite app_nil_r.
      rewrite CU by (apply Forall_firstn, HUm). rewrite firstn_length. rewrite Nat.min_l by lia. nia. }
  assert (KP : 0 < k) by (destruct k; [cbn in HK2; lia|lia]).
  assert (ST : snd (bin_blocks p nl B [rows]) <> None).
  { unfold bin_blocks. cbn [bin_run bin_step].
    assert (NV : exists m, num_vals rows = S m).
    { unfold num_vals, rows. rewrite somes_app, SM, app_length, HI. exists (2 * k + length (somes more) - 1). lia. }
    destruct NV as (m & ->). 
    assert (SR : somes rows = skipn 0 items ++ somes more) by (unfold rows; rewrite somes_app, SM; reflexivity).
    cbn [bin_cut]. rewrite SR, FI by (cbn [skipn]; lia). destruct (Nat.leb_spec k 0); [lia|]. rewrite Nat.sub_0_r. cbn zeta.
    assert (SD : somes (drop_vals k rows) = skipn k items ++ somes more).
    { rewrite drop_somes, SR. cbn [skipn]. rewrite skipn_app. replace (k - length items) with 0 by lia. reflexivity. }
    rewrite SD, FI by (rewrite skipn_length; lia). rewrite Nat.leb_refl. cbn [fst snd]. discriminate. }
  destruct (snd (bin_blocks p nl B [rows])) as [kind|]; [|congruence].
  destruct (writable 0 _); [rewrite BC; eexists; reflexivity|exact BC].
Qed.
Print Assumptions C35_second_block_panics_refuted.

Example C35_panic_witness :
  be_column_rows Release 128 false [repeat (Some [1; 2; 3; 4]%N) 64] = Panic PAssert
  /\ be_column_rows Debug 128 true [repeat (Some [1; 2; 3; 4]%N) 64 ++ [None]] = Panic PAssert
  /\ be_column_rows Debug 128 false [repeat (Some (@nil N)) 129] = Panic PAssert.
Proof. vm_compute. repeat split. Qed.
