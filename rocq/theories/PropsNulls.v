(** C97: what nulls change about the blocks of a column (raw/primitive_enc.rs,
    raw/binary_enc.rs). *)
From Verif Require Import Base BaseProofs Spec SpecRows SpecBin Varint VarintProofs Buffers Observe BitmapProofs BuffersProofs
  Rle RleProofs Offsets OffsetsProofs Sink PrimEnc BinEnc ObserveEnc ReadBlock ReadBinBlock RowsProofs BlockProofs PrimRunProofs
  PropsPrim PropsPrimRows PropsPrimIds PrimEncProofs PropsPrimAny PropsPrimAll PropsPrimAllErr BinBlockProofs BinEncProofs BinRunProofs PropsBin PropsBinRows PropsBinExact.
Open Scope nat_scope.

(** The same values without the nulls. *)
Definition only_values {T} (rows : list (option T)) : list (option T) := map Some (somes rows).

Section Values.
Context {T : Type}.
Implicit Types r : list (option T).

Lemma values_somes r : somes (only_values r) = somes r.
Proof. unfold only_values. induction r as [|[v|] r IH]; cbn [somes map]; [reflexivity|f_equal; exact IH|exact IH]. Qed.

Lemma values_num r : num_vals (only_values r) = num_vals r.
Proof. unfold num_vals. rewrite values_somes. reflexivity. Qed.

Lemma values_length r : length (only_values r) = num_vals r.
Proof. unfold only_values. apply map_length. Qed.

Lemma values_app a r : only_values (a ++ r) = only_values a ++ only_values r.
Proof. unfold only_values. rewrite somes_app. apply map_app. Qed.

Lemma values_take k : forall r, take_vals k (only_values r) = only_values (take_vals k r).
Proof.
  unfold only_values. intros r. revert k. induction r as [|[v|] r IH]; intros [|k]; cbn [somes map take_vals]; try reflexivity.
  - f_equal. apply IH.
  - destruct (map Some (somes r)) as [|[|]]; reflexivity.
  - rewrite IH. reflexivity.
Qed.

Lemma values_drop k : forall r, drop_vals k (only_values r) = only_values (drop_vals k r).
Proof.
  assert (Z : forall r, drop_vals 0 r = r) by (intros [|[|] r]; reflexivity).
  unfold only_values. intros r. revert k. induction r as [|[v|] r IH]; intros [|k]; rewrite ?Z; cbn [somes map]; try reflexivity; cbn [drop_vals]; apply IH.
Qed.

Lemma values_trim r : trim (only_values r) = only_values (trim r).
Proof. unfold trim. rewrite values_num. apply values_take. Qed.

Lemma values_nil r : ends_some r -> only_values r = [] -> r = [].
Proof.
  intros [->|(a & v & ->)]; [reflexivity|]. rewrite values_app. cbn. destruct (only_values a); discriminate.
Qed.

Lemma values_windows cap : forall f r, windows f cap (only_values r) = map only_values (windows f cap r).
Proof.
  induction f as [|f IH]; intros r; cbn [windows map]; [reflexivity|]. rewrite values_num. destruct (cap <=? num_vals r); [|reflexivity].
  cbn [map]. rewrite values_take, values_drop, IH. reflexivity.
Qed.

Lemma values_leftover cap : forall f r, leftover f cap (only_values r) = only_values (leftover f cap r).
Proof.
  induction f as [|f IH]; intros r; cbn [leftover]; [apply values_trim|]. rewrite values_num. destruct (cap <=? num_vals r); [|apply values_trim].
  rewrite values_drop. apply IH.
Qed.

Lemma values_cut cap r : cut cap (only_values r) = map only_values (cut cap r).
Proof. unfold cut. rewrite values_num. apply values_windows. Qed.

Lemma values_rest cap r : rest_of cap (only_values r) = only_values (rest_of cap r).
Proof. unfold rest_of. rewrite values_num. apply values_leftover. Qed.

Lemma leftover_ends cap : forall f r, ends_some (leftover f cap r).
Proof.
  induction f as [|f IH]; intros r; cbn [leftover]; [unfold trim; apply take_ends; lia|].
  destruct (cap <=? num_vals r); [apply IH|unfold trim; apply take_ends; lia].
Qed.

Lemma values_seen past r : ends_some r -> only_values (seen true past r) = only_values r.
Proof. intros H. unfold only_values. rewrite (proj1 (seen_spec true past r H)). reflexivity. Qed.

(** Blocks counted for numbers of rows, with nulls and without. *)
Definition like (x y : nat * list (option T)) : Prop :=
  snd y = only_values (snd x) /\ fst y = num_vals (snd x) /\ fst y <= fst x.

Lemma values_counted : forall ws pos pos0, Forall2 like (SpecRows.counted true pos ws) (SpecRows.counted false pos0 (map only_values ws)).
Proof.
  induction ws as [|w ws IH]; intros pos pos0; cbn [SpecRows.counted map]; constructor; [|apply IH].
  unfold like. cbn [fst snd]. rewrite values_length. pose proof (somes_length_le w) as L. unfold num_vals. repeat split. lia.
Qed.

Lemma values_run checked sz B cap : forall bufs past past0 held, ends_some held ->
  let run := col_all true checked sz B cap past held bufs in
  let run0 := col_all false checked sz B cap past0 (only_values held) (map only_values bufs) in
  Forall2 like (fst run) (fst run0)
  /\ match snd run, snd run0 with
     | Some (_, h), Some (_, h0) => ends_some h /\ h0 = only_values h
     | None, None => True
     | _, _ => False
     end.
Proof.
  induction bufs as [|b bufs IH]; intros past past0 held HE; cbn zeta; cbn [col_all map].
  - cbn [fst snd]. auto.
  - destruct held as [|x h0] eqn:EH.
    + cbn [only_values somes map]. cbn zeta. cbn [fst snd]. rewrite values_cut, values_rest.
      destruct (IH past past0 (rest_of cap b) (leftover_ends _ _ _)) as [I1 I2]. split; [|exact I2].
      apply Forall2_app; [apply values_counted|exact I1].
    + rewrite <- EH in *. assert (NE : only_values held <> []).
      { intros C. apply values_nil in C; [|exact HE]. rewrite EH in C. discriminate. }
      clear EH. destruct (only_values held) as [|y w0] eqn:EV; [congruence|]. rewrite <- EV in *. clear EV y w0 NE.
      rewrite values_num, values_num. destruct (andb _ _); [cbn [fst snd]; auto|].
      set (k := if (B <? N.of_nat (num_vals held * sz))%N then num_vals b else min (cap - num_vals held) (num_vals b)).
      cbn zeta.
      assert (KL : k <= num_vals b) by (unfold k; destruct (_ <? _)%N; lia).
      rewrite values_take, values_drop, <- values_app, values_num.
      assert (HE2 : ends_some (held ++ take_vals k b)).
      { pose proof (take_ends k b KL) as TE. destruct TE as [->|(a & v & ->)]; [rewrite app_nil_r; exact HE|]. right. exists (held ++ a), v. rewrite app_assoc. reflexivity. }
      destruct (_ <? B)%N; [apply IH; exact HE2|]. cbn [fst snd]. rewrite values_cut, values_rest.
      destruct (IH ((held ++ take_vals k b) :: past) (only_values (held ++ take_vals k b) :: past0) (rest_of cap (drop_vals k b)) (leftover_ends _ _ _)) as [I1 I2].
      split; [|exact I2]. constructor.
      * set (F := held ++ take_vals k b) in *. change (seen false past0 (only_values F)) with (only_values F).
        destruct (seen_spec true past F HE2) as (S1 & _). pose proof (somes_length_le (seen true past F)) as L.
        unfold like. cbn [fst snd]. rewrite values_length. unfold num_vals. rewrite <- S1.
        split; [symmetry; apply values_seen; exact HE2|]. split; [reflexivity|exact L].
      * apply Forall2_app; [apply values_counted|exact I1].
Qed.

Lemma values_flush past past0 r : ends_some r -> Forall2 like (flush_block (seen true past r)) (flush_block (seen false past0 (only_values r))).
Proof.
  intros HE. destruct (seen_spec true past r HE) as (S1 & S2 & _). change (seen false past0 (only_values r)) with (only_values r). unfold flush_block.
  assert (V : only_values (seen true past r) = only_values r) by (apply values_seen; exact HE).
  destruct (seen true past r) as [|x s0] eqn:E.
  - rewrite <- V. constructor.
  - rewrite <- E in *. destruct (only_values r) as [|y o] eqn:EV.
    + exfalso. apply values_nil in V; [|exact S2]. rewrite E in V. discriminate.
    + rewrite <- V. constructor; [|constructor]. unfold like. cbn [fst snd]. rewrite values_length. pose proof (somes_length_le (seen true past r)). unfold num_vals. repeat split. assumption.
Qed.

Lemma like_total a b : Forall2 like a b -> (total (map fst b) <= total (map fst a))%N.
Proof. induction 1 as [|x y a b (L1 & L2 & L3) _ IH]; cbn [map total fold_right]; [lia|]. fold (total (map fst a)) (total (map fst b)). lia. Qed.
End Values.

(** ** Fixed-width columns *)

(** The block without nulls, and the validity of its rows. *)
Definition then_validity (plain block : list N) (bits : list bool) : Prop :=
  exists validity, rle_encode rle_new bits = Ret validity /\ block = plain ++ validity.

Lemma prim_block_values sz (R : list (option N)) :
  prim_block sz true R = prim_block sz false (only_values R) ++ validity_bytes (validity_of R).
Proof. unfold prim_block. rewrite values_num, values_somes, app_nil_r, <- app_assoc. reflexivity. Qed.

Lemma fill_rows nl rowss : Forall (rows_allowed nl) rowss ->
  exists bufs, pb_fill nl rowss = Ret bufs /\ Forall2 (fun b rows => pb_holds b nl rows) bufs rowss.
Proof.
  induction 1 as [|r rowss HA _ (bufs & E & F)]; [exists []; split; [reflexivity|constructor]|].
  destruct (pb_new_rows nl r HA) as (b & E1 & V & VR). exists (b :: bufs). cbn [pb_fill]. rewrite E1, bind_ret, E. split; [reflexivity|].
  constructor; [|exact F]. split; [exact V|]. eapply val_rep_shows; eauto.
Qed.

Lemma values_allowed {T} nl (rowss : list (list (option T))) : Forall (rows_allowed nl) (map only_values rowss).
Proof. apply Forall_forall. intros r I. apply in_map_iff in I. destruct I as (r0 & <- & _). right. unfold only_values. apply Forall_forall. intros x I. apply in_map_iff in I. destruct I as (v & <- & _). reflexivity. Qed.

Lemma values_total {T} (rowss : list (list (option T))) : length (concat (map only_values rowss)) <= length (concat rowss).
Proof. induction rowss as [|r rowss IH]; cbn [map concat]; [lia|]. rewrite !app_length, values_length. pose proof (somes_length_le r). unfold num_vals. lia. Qed.

Lemma least_values sz B : 0 < sz -> exists cap, (B <= N.of_nat (cap * sz) < B + N.of_nat sz)%N.
Proof.
  intros Hs. exists (N.to_nat ((B + N.of_nat sz - 1) / N.of_nat sz)). rewrite Nat2N.inj_mul, N2Nat.id.
  pose proof (N.div_mod (B + N.of_nat sz - 1) (N.of_nat sz) ltac:(lia)) as E. pose proof (N.mod_lt (B + N.of_nat sz - 1) (N.of_nat sz) ltac:(lia)) as L. nia.
Qed.

(** The blocks, and the rows counted, of all of a column. *)
Lemma values_blocks {T} checked sz B cap (rowss : list (list (option T))) :
  match all_blocks true checked sz B cap rowss, all_blocks false checked sz B cap (map only_values rowss) with
  | Some bs, Some bs0 => Forall2 like bs bs0
  | None, None => True
  | _, _ => False
  end.
Proof.
  pose proof (values_run checked sz B cap rowss [] [] [] ltac:(left; reflexivity)) as [V1 V2]. unfold all_blocks.
  change (only_values []) with (@nil (option T)) in *. cbn zeta in V1, V2 |- *.
  destruct (snd (col_all true checked sz B cap [] [] rowss)) as [[past held]|], (snd (col_all false checked sz B cap [] [] (map only_values rowss))) as [[past0 held0]|]; auto.
  destruct V2 as [HE ->]. apply Forall2_app; [exact V1|]. apply values_flush; exact HE.
Qed.

(** C97 for fixed-width columns: if the column with nulls can be written, then
    the values alone can be written to a column that does not allow nulls, to the
    same number of blocks; each block with nulls is the block without them,
    followed by the validity of its rows.  The other way, the nulls make a
    difference only if the rows counted pass 2^32-1. *)
Theorem C97_fixed : forall p sz B rowss,
  0 < sz -> (N.of_nat sz < 2 ^ 31)%N -> (0 < B < 2 ^ 32)%N ->
  (total_rows rowss <= 2 ^ 32 - 8)%N -> Forall (fit sz) rowss ->
  match pe_column_rows p sz B true rowss, pe_column_rows p sz B false (map only_values rowss) with
  | Ret (nulls, r), Ret (plain, r0) =>
      r = Ok tt /\ r0 = Ok tt
      /\ Forall2 (fun b b0 => exists rows, read_primitive_block p sz false (snd b0) = Ret (Ok (only_values rows))
           /\ read_primitive_block p sz true (snd b) = Ret (Ok rows) /\ then_validity (snd b0) (snd b) (validity_of rows)) nulls plain
  | Panic k, Panic k0 => k = k0 \/ k = PExpect
  | Panic k, Ret _ => k = PExpect
  | _, _ => False
  end.
Proof.
  intros p sz B rowss Hs Hz HB HT HV. destruct (least_values sz B Hs) as (cap & HC).
  destruct (fill_rows true rowss) as (bufs & E & HH); [apply Forall_forall; left; reflexivity|].
  destruct (fill_rows false (map only_values rowss) (values_allowed false rowss)) as (bufs0 & E0 & HH0).
  assert (HT0 : (total_rows (map only_values rowss) <= 2 ^ 32 - 8)%N) by (unfold total_rows in *; pose proof (values_total rowss); lia).
  assert (HV0 : Forall (fit sz) (map only_values rowss)).
  { apply Forall_map. eapply Forall_impl; [|exact HV]. intros r F. unfold fit in *. rewrite values_somes. exact F. }
  pose proof (column_written p sz B cap true bufs rowss Hs Hz HB HC HH HT HV) as W.
  pose proof (column_written p sz B cap false bufs0 (map only_values rowss) Hs Hz HB HC HH0 HT0 HV0) as W0.
  pose proof (values_run (checks p) sz B cap rowss [] [] [] ltac:(left; reflexivity)) as [L0 _].
  pose proof (values_blocks (checks p) sz B cap rowss) as L. unfold all_blocks in L. unfold pe_column_rows. rewrite E, E0, !bind_ret.
  change (only_values []) with (@nil (option N)) in L0. cbn zeta in *. clear HH HH0 E E0 HV HV0 HT HT0.
  destruct (snd (col_all true (checks p) sz B cap [] [] rowss)) as [[past held]|], (snd (col_all false (checks p) sz B cap [] [] (map only_values rowss))) as [[past0 held0]|]; try contradiction.
  - set (bs := fst (col_all true _ _ _ _ _ _ _) ++ _) in *. set (bs0 := fst (col_all false _ _ _ _ _ _ _) ++ _) in *.
    pose proof (like_total _ _ L) as LT. destruct (N.leb_spec (total (map fst bs)) u32_max) as [A|A].
    + destruct (N.leb_spec (total (map fst bs0)) u32_max) as [A0|A0]; [|lia].
      destruct W as (ws & -> & _ & R & D & G). destruct W0 as (ws0 & -> & _ & R0 & D0 & _). split; [reflexivity|]. split; [reflexivity|].
      clear A A0 LT L0. clearbody bs bs0. unfold reads_blocks in *. revert ws ws0 R R0 D D0 G.
      induction L as [|x y bs bs0 (X1 & X2 & _) _ IH]; intros [|w ws] [|w0 ws0] R R0 D D0 G; try discriminate; constructor.
      * exists (snd x). cbn [map] in *. injection R as R _. injection R0 as R0 _. injection D as D _. injection D0 as D0 _. rewrite X1 in R0, D0.
        split; [exact R0|]. split; [exact R|]. apply Forall_cons_iff in G. destruct G as [(_ & _ & G & _) _].
        exists (validity_bytes (validity_of (snd x))). split.
        -- apply validity_bytes_ok. rewrite validity_length. change (2 ^ 32)%N with 4294967296%N in *. change (4294967296 - 8)%N with 4294967288%N in G. lia.
        -- rewrite D, D0. apply prim_block_values.
      * cbn [map] in *. injection R as _ R. injection R0 as _ R0. injection D as _ D. injection D0 as _ D0. apply Forall_cons_iff in G. apply IH; tauto.
    + rewrite W. destruct (_ <=? _)%N; [destruct W0 as (ws0 & -> & _); reflexivity|]. rewrite W0. auto.
  - pose proof (like_total _ _ L0) as LT. destruct (N.leb_spec (total (map fst (fst (col_all true (checks p) sz B cap [] [] rowss)))) u32_max), (N.leb_spec (total (map fst (fst (col_all false (checks p) sz B cap [] [] (map only_values rowss))))) u32_max); rewrite W, W0; auto. lia.
Qed.
Print Assumptions C97_fixed.

(** ** Binary columns *)

Definition item_like (it it0 : bin_item) : Prop :=
  it_rows it0 = only_values (it_rows it) /\ it_extra it0 = it_extra it
  /\ it_count it0 = num_vals (it_rows it) /\ it_count it0 <= it_count it.

Definition end_like (e e0 : ending) : Prop :=
  match e, e0 with
  | Held R, Held R0 => ends_some R /\ R0 = only_values R
  | Stuck k, Stuck k0 => k = k0
  | _, _ => False
  end.

Lemma values_bin_cut p B : forall fuel s pos pos0 rows,
  let r := bin_cut p true fuel B s pos rows in
  let r0 := bin_cut p false fuel B s pos0 (only_values rows) in
  Forall2 item_like (fst r) (fst r0) /\ end_like (snd r) (snd r0).
Proof.
  induction fuel as [|fuel IH]; intros s pos pos0 rows; cbn zeta; cbn [bin_cut]; [split; [constructor|reflexivity]|].
  rewrite values_somes. destruct (SpecBin.fill B (somes rows)) as [q|].
  - destruct (q <=? s); [split; [constructor|reflexivity]|]. cbn zeta. cbn [fst snd]. rewrite values_take, values_drop.
    destruct (IH q (pos + length (take_vals (q - s) rows)) (pos0 + length (only_values (take_vals (q - s) rows))) (drop_vals (q - s) rows)) as [I1 I2].
    split; [|exact I2]. constructor; [|exact I1]. unfold item_like. cbn [it_rows it_extra it_count]. rewrite values_length.
    pose proof (somes_length_le (take_vals (q - s) rows)). unfold num_vals. repeat split. lia.
  - cbn [fst snd end_like]. split; [constructor|]. split; [unfold trim; apply take_ends; lia|apply values_trim].
Qed.

Lemma ends_app {T} (a b : list (option T)) : ends_some a -> ends_some b -> ends_some (a ++ b).
Proof. intros HA [->|(r & v & ->)]; [rewrite app_nil_r; exact HA|]. right. exists (a ++ r), v. rewrite app_assoc. reflexivity. Qed.

Lemma values_bin_step p B past past0 R b : ends_some R ->
  let r := snd (bin_step p true B past R b) in
  let r0 := snd (bin_step p false B past0 (only_values R) (only_values b)) in
  Forall2 item_like (fst r) (fst r0) /\ end_like (snd r) (snd r0).
Proof.
  intros HE. cbn zeta. unfold bin_step. destruct R as [|x R1] eqn:ER.
  - change (only_values []) with (@nil (option (list N))). cbn [snd]. rewrite values_num. apply values_bin_cut.
  - rewrite <- ER in *. assert (NE : only_values R <> []).
    { intros C. apply values_nil in C; [|exact HE]. rewrite ER in C. discriminate. }
    clear ER. destruct (only_values R) as [|y w0] eqn:EV; [congruence|]. rewrite <- EV in *. clear EV y w0 NE.
    unfold bytes_of. rewrite !values_somes. destruct (SpecBin.fill _ (somes b)) as [k|] eqn:EF; cbn zeta; cbn [fst snd].
    + rewrite values_take, values_drop, <- values_app, values_num.
      assert (KL : k <= num_vals b) by (apply fill_some in EF; apply EF).
      assert (HE2 : ends_some (R ++ take_vals k b)) by (apply ends_app; [exact HE|apply take_ends; exact KL]).
      set (F := R ++ take_vals k b) in *. change (seen false past0 (only_values F)) with (only_values F).
      destruct (values_bin_cut p B (S (num_vals b)) k (length (take_vals k b)) (length (only_values (take_vals k b))) (drop_vals k b)) as [I1 I2].
      split; [|exact I2]. constructor; [|exact I1].
      destruct (seen_spec true past F HE2) as (S1 & _). pose proof (somes_length_le (seen true past F)) as L.
      unfold item_like. cbn [it_rows it_extra it_count]. rewrite values_length. unfold num_vals. rewrite <- S1.
      split; [symmetry; apply values_seen; exact HE2|]. split; [reflexivity|]. split; [reflexivity|exact L].
    + split; [constructor|]. cbn [end_like]. rewrite values_trim, <- values_app. split; [|reflexivity].
      apply ends_app; [exact HE|unfold trim; apply take_ends; lia].
Qed.

Lemma values_bin_run p B : forall bufs past past0 R, ends_some R ->
  let r := snd (bin_run p true B past R bufs) in
  let r0 := snd (bin_run p false B past0 (only_values R) (map only_values bufs)) in
  Forall2 item_like (fst r) (fst r0) /\ end_like (snd r) (snd r0).
Proof.
  induction bufs as [|b bufs IH]; intros past past0 R HE; cbn zeta; cbn [bin_run map]; [cbn [fst snd end_like]; auto|].
  pose proof (values_bin_step p B past past0 R b HE) as X. cbn zeta in X.
  destruct (bin_step p true B past R b) as [past1 [its e]], (bin_step p false B past0 (only_values R) (only_values b)) as [past2 [its0 e0]].
  cbn [fst snd] in X. destruct X as [X1 X2]. destruct e as [R1|k], e0 as [R2|k0]; try contradiction.
  - destruct X2 as [HE1 ->]. cbn zeta. cbn [fst snd]. destruct (IH past1 past2 R1 HE1) as [I1 I2]. split; [apply Forall2_app; assumption|exact I2].
  - cbn [fst snd]. auto.
Qed.

Lemma values_planned p B rowss :
  let '(items, stop) := planned_blocks p true B rowss in
  let '(items0, stop0) := planned_blocks p false B (map only_values rowss) in
  Forall2 item_like items items0 /\ stop0 = stop.
Proof.
  unfold planned_blocks. pose proof (values_bin_run p B rowss [] [] [] ltac:(left; reflexivity)) as X. cbn zeta in X.
  change (only_values []) with (@nil (option (list N))) in X.
  destruct (bin_run p true B [] [] rowss) as [past [its e]], (bin_run p false B [] [] (map only_values rowss)) as [past0 [its0 e0]].
  cbn [fst snd] in X. destruct X as [X1 X2]. destruct e as [R|k], e0 as [R0|k0]; try contradiction; [|cbn in X2; rewrite X2; auto].
  destruct X2 as [HE ->]. destruct R as [|x R1] eqn:ER; [change (only_values []) with (@nil (option (list N))); cbn beta iota; auto|].
  assert (RN : R <> []) by (rewrite ER; discriminate). rewrite <- ER in *. assert (NE : only_values R <> []).
  { intros C. apply (values_nil R HE) in C. exact (RN C). }
  clear ER. destruct (only_values R) as [|y w0] eqn:EV; [congruence|]. rewrite <- EV in *. clear EV y w0 NE.
  split; [|reflexivity]. apply Forall2_app; [exact X1|]. constructor; [|constructor].
  change (seen false past0 (only_values R)) with (only_values R).
  destruct (seen_spec true past R HE) as (S1 & _). pose proof (somes_length_le (seen true past R)) as L.
  unfold item_like. cbn [it_rows it_extra it_count]. rewrite values_length. unfold num_vals. rewrite <- S1.
  split; [symmetry; apply values_seen; exact HE|]. split; [reflexivity|]. split; [reflexivity|exact L].
Qed.

Lemma layout_values p R extra block plain : layout p true R extra block -> layout p false (only_values R) extra plain ->
  then_validity plain block (validity_of R).
Proof.
  intros (s1 & q1 & l1 & v1 & A1 & A2 & A3 & ->) (s0 & q0 & l0 & v0 & B1 & B2 & B3 & ->). rewrite values_somes in *.
  rewrite A1 in B1. rewrite A2 in B2. injection B1 as <-. injection B2 as _ <-. rewrite B3. exists v1. split; [exact A3|].
  rewrite app_nil_r, <- !app_assoc. reflexivity.
Qed.

Lemma like_counts a b : Forall2 item_like a b -> list_sum (map it_count b) <= list_sum (map it_count a).
Proof. induction 1 as [|x y a b (_ & _ & _ & L) _ IH]; unfold list_sum in *; cbn [map fold_right]; lia. Qed.

(** C97 for binary columns. *)
Theorem C97_binary : forall p B rowss, (0 < B)%N ->
  Forall (fun r => B + N.of_nat (length (concat (somes r))) < 2 ^ 32)%N rowss ->
  (N.of_nat (length (concat rowss)) <= 2 ^ 32 - 2)%N ->
  match be_column_rows p B true rowss, be_column_rows p B false (map only_values rowss) with
  | Ret (nulls, r), Ret (plain, r0) =>
      r = Ok tt /\ r0 = Ok tt
      /\ Forall2 (fun b b0 => exists rows extra, layout p false (only_values rows) extra (snd b0)
           /\ layout p true rows extra (snd b) /\ then_validity (snd b0) (snd b) (validity_of rows)) nulls plain
  | Panic _, Panic _ => True
  | Panic _, Ret _ => (2 ^ 32 <= N.of_nat (list_sum (map it_count (fst (planned_blocks p true B rowss)))))%N
  | _, _ => False
  end.
Proof.
  intros p B rowss HB HF HL.
  assert (HF0 : Forall (fun r => B + N.of_nat (length (concat (somes r))) < 2 ^ 32)%N (map only_values rowss)).
  { apply Forall_map. eapply Forall_impl; [|exact HF]. intros r H. rewrite values_somes. exact H. }
  assert (HL0 : (N.of_nat (length (concat (map only_values rowss))) <= 2 ^ 32 - 2)%N) by (pose proof (values_total rowss); lia).
  pose proof (C34_column_exact p B true rowss HB ltac:(apply Forall_forall; left; reflexivity) HF HL) as X.
  pose proof (C34_column_exact p B false (map only_values rowss) HB (values_allowed false rowss) HF0 HL0) as X0.
  pose proof (values_planned p B rowss) as V. clear HF HF0 HL HL0.
  destruct (planned_blocks p true B rowss) as [items stop]. destruct (planned_blocks p false B (map only_values rowss)) as [items0 stop0].
  destruct V as [V ->]. destruct X as (X1 & X2 & X3), X0 as (Y1 & Y2 & Y3). cbn [fst].
  assert (D : forall its, can_be_written its \/ ~ can_be_written its).
  { intros its. destruct (writable 0 its) eqn:W; [left; apply writable_is; exact W|right; rewrite <- writable_is, W; discriminate]. }
  assert (SM : Forall (fun it => length (somes (it_rows it)) <= 128) items <-> Forall (fun it => length (somes (it_rows it)) <= 128) items0).
  { clear -V. induction V as [|x y a b (L1 & _) _ IH]; [tauto|]. rewrite !Forall_cons_iff, IH, L1, values_somes. tauto. }
  pose proof (like_counts _ _ V) as LC. destruct (D items) as [W|W].
  - assert (W0 : can_be_written items0) by (destruct W as [WA WB]; split; [tauto|clear -WB LC; lia]).
    destruct stop as [k|]; [rewrite (X2 W k eq_refl), (Y2 W0 k eq_refl); exact I|].
    destruct (X1 W eq_refl) as (bs & -> & _ & F). destruct (Y1 W0 eq_refl) as (bs0 & -> & _ & F0). split; [reflexivity|]. split; [reflexivity|].
    clear -V F F0. revert bs bs0 F F0. induction V as [|x y a b (L1 & L2 & _) _ IH]; intros bs bs0 F F0; inversion F; inversion F0; subst; constructor.
    + exists (it_rows x), (it_extra x). rewrite L1, L2 in *. split; [assumption|]. split; [assumption|]. eapply layout_values; eassumption.
    + apply IH; assumption.
  - destruct (X3 W) as [k ->]. destruct (D items0) as [W0|W0].
    + destruct stop as [k1|]; [rewrite (Y2 W0 k1 eq_refl); exact I|]. destruct (Y1 W0 eq_refl) as (bs0 & -> & _).
      destruct W0 as [WA WB]. apply N.le_ngt. intros C. apply W. split; [tauto|exact C].
    + destruct (Y3 W0) as [k0 ->]. exact I.
Qed.
Print Assumptions C97_binary.

(** ** Columns of fewer than 65536 rows *)

(** [items] are counted for at most [len] rows each and there is a value for
    each of them, and for each of the [held] ones, among [vals]. *)
Definition few_items (items : list bin_item) (held vals len : nat) : Prop :=
  Forall (fun it => it_count it <= len) items /\ length items + held <= vals.

Definition held_vals (e : ending) : nat := match e with Held R => num_vals R | Stuck _ => 0 end.

Lemma take_num {T} k (rows : list (option T)) : k <= num_vals rows -> num_vals (take_vals k rows) = k /\ num_vals (drop_vals k rows) = num_vals rows - k.
Proof. intros H. unfold num_vals in *. rewrite take_somes, drop_somes, firstn_length, skipn_length. lia. Qed.

Lemma cut_few p nl B : forall fuel s pos rows, let r := bin_cut p nl fuel B s pos rows in few_items (fst r) (held_vals (snd r)) (num_vals rows) (pos + length rows).
Proof.
  induction fuel as [|fuel IH]; intros s pos rows; cbn zeta; cbn [bin_cut]; [split; [constructor|cbn; lia]|].
  destruct (SpecBin.fill B (somes rows)) as [q|] eqn:EF.
  - destruct (Nat.leb_spec q s); [split; [constructor|cbn; lia]|]. cbn zeta. cbn [fst snd]. apply fill_some in EF. destruct EF as [EF _]. fold (num_vals rows) in EF.
    destruct (IH q (pos + length (take_vals (q - s) rows)) (drop_vals (q - s) rows)) as [I1 I2].
    destruct (take_num (q - s) rows ltac:(lia)) as [_ T2]. rewrite T2 in I2. pose proof (drop_length (q - s) rows) as DL. split.
    + constructor; [cbn [it_count]; destruct nl; lia|]. eapply Forall_impl; [|exact I1]. cbn beta. intros; lia.
    + cbn [length]. lia.
  - cbn [fst snd held_vals]. split; [constructor|]. cbn [length]. unfold num_vals. rewrite PropsBinRows.somes_trim. lia.
Qed.

Lemma step_few p nl B past R b : ends_some R -> let r := snd (bin_step p nl B past R b) in
  few_items (fst r) (held_vals (snd r)) (num_vals R + num_vals b) (length R + length b).
Proof.
  intros HE. cbn zeta. unfold bin_step. destruct R as [|x R1] eqn:ER; [cbn [snd num_vals somes length Nat.add]; apply cut_few|].
  rewrite <- ER in *. assert (RN : R <> []) by (rewrite ER; discriminate). clear ER.
  pose proof (nonempty_num R HE RN) as HP. destruct (SpecBin.fill _ (somes b)) as [k|] eqn:EF; cbn zeta; cbn [fst snd].
  - apply fill_some in EF. destruct EF as [EF _]. fold (num_vals b) in EF. destruct (take_num k b EF) as [_ T2]. pose proof (drop_length k b) as DL.
    destruct (cut_few p nl B (S (num_vals b)) k (length (take_vals k b)) (drop_vals k b)) as [C1 C2]. rewrite T2 in C2. split.
    + constructor.
      * cbn [it_count]. destruct (seen_spec nl past (R ++ take_vals k b)) as (_ & _ & S3 & _); [apply ends_app; [exact HE|apply take_ends; exact EF]|].
        rewrite app_length in S3. lia.
      * eapply Forall_impl; [|exact C1]. cbn beta. intros; lia.
    + cbn [length]. lia.
  - split; [constructor|]. cbn [length held_vals]. rewrite num_vals_app. unfold num_vals. rewrite PropsBinRows.somes_trim. lia.
Qed.

Lemma run_few p nl B : (0 < B)%N -> forall bufs past R, ends_some R -> (N.of_nat (bytes_of R) < B)%N -> let r := snd (bin_run p nl B past R bufs) in
  few_items (fst r) (held_vals (snd r)) (num_vals R + num_vals (concat bufs)) (length R + length (concat bufs)).
Proof.
  intros HB. induction bufs as [|b bufs IH]; intros past R HE HR; cbn zeta; cbn [bin_run concat].
  - cbn [fst snd held_vals]. split; [constructor|cbn [length]; lia].
  - pose proof (step_few p nl B past R b HE) as SF. cbn zeta in SF. destruct (bin_step p nl B past R b) as [past1 [its e]] eqn:ES.
    cbn [fst snd] in SF. destruct SF as [S1 S2]. rewrite num_vals_app, app_length. destruct e as [R1|k]; cbn zeta; cbn [fst snd].
    + apply bin_step_held in ES; [|exact HE|exact HR]. destruct ES as (A1 & A2 & A3 & _). destruct (IH past1 R1 A2 A1) as [I1 I2].
      cbn [held_vals] in S2. split; [apply Forall_app; split; (eapply Forall_impl; [|eassumption]); cbn; intros; lia|]. rewrite app_length. lia.
    + split; [eapply Forall_impl; [|exact S1]; cbn; intros; lia|]. cbn [held_vals] in *. lia.
Qed.

Lemma sum_few items held vals len : few_items items held vals len -> list_sum (map it_count items) <= vals * len.
Proof.
  intros [F L]. assert (X : list_sum (map it_count items) <= length items * len).
  { clear L. induction F as [|it items H _ IH]; [cbn; lia|]. unfold list_sum in *. cbn [map fold_right length Nat.mul]. lia. }
  nia.
Qed.

Lemma planned_few p nl B rowss : (0 < B)%N -> list_sum (map it_count (fst (planned_blocks p nl B rowss))) <= length (concat rowss) * length (concat rowss).
Proof.
  intros HB. pose proof (run_few p nl B HB rowss [] [] ltac:(left; reflexivity) ltac:(cbn; lia)) as X. cbn zeta in X. unfold planned_blocks.
  destruct (bin_run p nl B [] [] rowss) as [past [its e]] eqn:ER. cbn [fst snd] in X. cbn [num_vals somes length Nat.add] in X.
  pose proof (somes_length_le (concat rowss)) as L. fold (num_vals (concat rowss)) in L.
  assert (G : forall its h, few_items its h (num_vals (concat rowss)) (length (concat rowss)) -> list_sum (map it_count its) <= length (concat rowss) * length (concat rowss)).
  { intros its0 h F. apply sum_few in F. nia. }
  destruct e as [R|k]; [|eapply G; exact X]. destruct R as [|x R1] eqn:EQ; [eapply G; exact X|]. rewrite <- EQ in *.
  assert (RN : R <> []) by (rewrite EQ; discriminate). clear EQ.
  apply bin_run_held in ER; [|left; reflexivity|cbn; lia]. destruct ER as (_ & HE & HL). cbn [length Nat.add] in HL. unfold sum_len in HL.
  destruct (seen_spec nl past R HE) as (_ & _ & S3 & _). pose proof (nonempty_num R HE RN) as HP. destruct X as [X1 X2]. cbn [held_vals] in X2.
  cbn [fst]. apply (G _ 0). split.
  - apply Forall_app. split; [exact X1|]. constructor; [cbn [it_count]; lia|constructor].
  - rewrite app_length. cbn [length]. lia.
Qed.

Lemma counted_few {T} nl len vals : forall (ws : list (list (option T))) pos, pos + length (concat ws) <= len -> length ws <= vals ->
  Forall (fun x => fst x <= len) (SpecRows.counted nl pos ws) /\ length (SpecRows.counted nl pos ws) <= vals.
Proof.
  induction ws as [|w ws IH]; intros pos HL HW; cbn [SpecRows.counted]; [split; [constructor|cbn; lia]|].
  cbn [concat] in HL. rewrite app_length in HL. cbn [length] in *.
  assert (X : forall vals', length ws <= vals' -> length (SpecRows.counted nl (pos + length w) ws) <= vals').
  { clear. revert pos w. induction ws as [|w' ws IH]; intros; cbn [SpecRows.counted length] in *; [lia|]. specialize (IH (pos + length w) w' (vals' - 1) ltac:(lia)). lia. }
  destruct (IH (pos + length w) ltac:(lia) ltac:(lia)) as [I1 _]. split; [constructor; [destruct nl; cbn [fst]; lia|exact I1]|]. specialize (X (length ws) ltac:(lia)). lia.
Qed.

Lemma windows_few {T} cap : 0 < cap -> forall f (rows : list (option T)),
  length (concat (windows f cap rows)) <= length rows /\ length (windows f cap rows) + num_vals (leftover f cap rows) <= num_vals rows.
Proof.
  intros Hc. assert (TR : forall rows : list (option T), num_vals (trim rows) = num_vals rows) by (intros; unfold num_vals; rewrite PropsPrimRows.somes_trim; reflexivity).
  induction f as [|f IH]; intros rows; cbn [windows leftover]; [rewrite TR; cbn; lia|].
  destruct (Nat.leb_spec cap (num_vals rows)); [|rewrite TR; cbn; lia]. cbn [concat length]. rewrite app_length.
  destruct (take_num cap rows ltac:(lia)) as [_ T2]. pose proof (drop_length cap rows) as DL. destruct (IH (drop_vals cap rows)) as [I1 I2]. lia.
Qed.

Definition num_held {T} (o : option (list (list (option T)) * list (option T))) : nat := match o with Some (_, h) => num_vals h | None => 0 end.

Lemma all_few {T} nl checked sz B cap : 0 < cap -> forall bufs past (held : list (option T)), ends_some held ->
  let run := col_all nl checked sz B cap past held bufs in
  Forall (fun x => fst x <= length held + length (concat bufs)) (fst run)
  /\ length (fst run) + num_held (snd run) <= num_vals held + num_vals (concat bufs)
  /\ match snd run with Some (_, h) => ends_some h /\ length h <= length held + length (concat bufs) | None => True end.
Proof.
  intros Hc. induction bufs as [|b bufs IH]; intros past held HE; cbn zeta; cbn [col_all concat].
  - cbn [fst snd]. split; [constructor|]. split; [cbn; lia|]. split; [exact HE|lia].
  - rewrite (num_vals_app b), (app_length b).
    assert (RL : forall rows : list (option T), length (rest_of cap rows) <= length rows).
    { intros rows. unfold rest_of. generalize (S (num_vals rows)) as f. intros f. revert rows. induction f as [|f IHf]; intros rows; cbn [leftover]; [apply trim_length|].
      destruct (cap <=? num_vals rows); [|apply trim_length]. specialize (IHf (drop_vals cap rows)). pose proof (drop_length cap rows). lia. }
    assert (CF : forall pos (rows : list (option T)) len, pos + length rows <= len -> Forall (fun x => fst x <= len) (SpecRows.counted nl pos (cut cap rows))
      /\ length (SpecRows.counted nl pos (cut cap rows)) + num_vals (rest_of cap rows) <= num_vals rows).
    { intros pos rows len HL. destruct (windows_few cap Hc (S (num_vals rows)) rows) as [W1 W2]. fold (cut cap rows) (rest_of cap rows) in *.
      destruct (counted_few nl len (num_vals rows - num_vals (rest_of cap rows)) (cut cap rows) pos ltac:(lia) ltac:(lia)) as [C1 C2]. split; [exact C1|lia]. }
    destruct held as [|x h0] eqn:EH.
    + cbn zeta. cbn [fst snd]. change (num_vals (@nil (option T))) with 0. change (length (@nil (option T))) with 0. rewrite !Nat.add_0_l. destruct (CF 0 b (length b + length (concat bufs)) ltac:(lia)) as [C1 C2].
      destruct (IH past (rest_of cap b) (leftover_ends _ _ _)) as (I1 & I2 & I3). specialize (RL b). split; [|split].
      * apply Forall_app. split; [exact C1|]. eapply Forall_impl; [|exact I1]. cbn beta. intros; lia.
      * rewrite app_length. lia.
      * destruct (snd _) as [[past1 h]|]; [|exact I]. destruct I3. split; [assumption|lia].
    + rewrite <- EH in *. assert (RN : held <> []) by (rewrite EH; discriminate). clear EH. pose proof (nonempty_num held HE RN) as HP.
      destruct (andb _ _); [cbn [fst snd length num_held]; split; [constructor|split; [lia|exact I]]|].
      set (k := if (B <? N.of_nat (num_vals held * sz))%N then num_vals b else min (cap - num_vals held) (num_vals b)).
      assert (KL : k <= num_vals b) by (unfold k; destruct (_ <? _)%N; lia). cbn zeta.
      destruct (take_num k b KL) as [T1 T2]. pose proof (drop_length k b) as DL.
      assert (HE2 : ends_some (held ++ take_vals k b)) by (apply ends_app; [exact HE|apply take_ends; exact KL]).
      destruct (_ <? B)%N.
      * destruct (IH past (held ++ take_vals k b) HE2) as (I1 & I2 & I3). rewrite app_length in *. rewrite num_vals_app in *. split; [|split; [lia|]].
        -- eapply Forall_impl; [|exact I1]. cbn beta. intros; lia.
        -- destruct (snd _) as [[past1 h]|]; [|exact I]. destruct I3. split; [assumption|lia].
      * cbn [fst snd]. destruct (CF (length (take_vals k b)) (drop_vals k b) (length held + (length b + length (concat bufs))) ltac:(lia)) as [C1 C2].
        destruct (IH ((held ++ take_vals k b) :: past) (rest_of cap (drop_vals k b)) (leftover_ends _ _ _)) as (I1 & I2 & I3). specialize (RL (drop_vals k b)).
        destruct (seen_spec nl past (held ++ take_vals k b) HE2) as (_ & _ & S3 & _). rewrite app_length in S3. split; [|split].
        -- constructor; [cbn [fst]; lia|]. apply Forall_app. split; [exact C1|]. eapply Forall_impl; [|exact I1]. cbn beta. intros; lia.
        -- cbn [length]. rewrite app_length. lia.
        -- destruct (snd _) as [[past1 h]|]; [|exact I]. destruct I3. split; [assumption|lia].
Qed.

Lemma total_few {T} (items : list (nat * list (option T))) n : Forall (fun x => fst x <= n) items -> length items <= n -> (total (map fst items) <= N.of_nat (n * n))%N.
Proof.
  intros F L. assert (X : (total (map fst items) <= N.of_nat (length items * n))%N).
  { clear L. induction F as [|it items H _ IH]; [cbn; lia|]. cbn [map total fold_right length Nat.mul]. fold (total (map fst items)). lia. }
  nia.
Qed.

(** With fewer than 65536 rows the nulls cannot make the count too large: both
    columns can be written, or neither. *)
Theorem C97_few_rows : forall p rowss,
  (forall sz B, 0 < sz -> (N.of_nat sz < 2 ^ 31)%N -> (0 < B < 2 ^ 32)%N ->
     (total_rows rowss < 65536)%N -> Forall (fit sz) rowss ->
     (is_panic (pe_column_rows p sz B true rowss) <-> is_panic (pe_column_rows p sz B false (map only_values rowss))))
  /\ (forall B (items : list (list (option (list N)))), (0 < B)%N ->
     Forall (fun r => B + N.of_nat (length (concat (somes r))) < 2 ^ 32)%N items ->
     (N.of_nat (length (concat items)) < 65536)%N ->
     (is_panic (be_column_rows p B true items) <-> is_panic (be_column_rows p B false (map only_values items)))).
Proof.
  intros p rowss. split.
  - intros sz B Hs Hz HB HT HV. change (2 ^ 32)%N with 4294967296%N in *.
    assert (HT8 : (total_rows rowss <= 2 ^ 32 - 8)%N) by (change (2 ^ 32 - 8)%N with 4294967288%N; lia).
    pose proof (C97_fixed p sz B rowss Hs Hz HB HT8 HV) as X. unfold is_panic.
    destruct (least_values sz B Hs) as (cap & HC). assert (Hc : 0 < cap) by (destruct cap; cbn in *; lia).
    destruct (fill_rows true rowss) as (bufs & E & HH); [apply Forall_forall; left; reflexivity|].
    pose proof (C31_every_column_exact p sz B cap true bufs rowss Hs Hz HB HC HH ltac:(change (2 ^ 32 - 2)%N with 4294967294%N; lia)) as Y.
    pose proof (values_blocks (checks p) sz B cap rowss) as VB.
    destruct (fill_rows false (map only_values rowss) (values_allowed false rowss)) as (bufs0 & E0 & HH0).
    pose proof (values_total rowss) as VT.
    pose proof (C31_every_column_exact p sz B cap false bufs0 (map only_values rowss) Hs Hz HB HC HH0 ltac:(change (2 ^ 32 - 2)%N with 4294967294%N; unfold total_rows in *; lia)) as Y0.
    unfold pe_column_rows in *. rewrite E, E0 in *. rewrite !bind_ret in *. clear X.
    assert (TF : match all_blocks true (checks p) sz B cap rowss with Some bs => (total (map fst bs) <= u32_max)%N | None => True end).
    { unfold all_blocks. pose proof (all_few true (checks p) sz B cap Hc rowss [] [] ltac:(left; reflexivity)) as (A1 & A2 & A3). cbn zeta in *.
      destruct (snd (col_all true (checks p) sz B cap [] [] rowss)) as [[past held]|]; [|exact I]. destruct A3 as [HE HL]. cbn [num_held] in A2.
      cbn [length Nat.add num_vals somes] in *. pose proof (somes_length_le (concat rowss)) as SL. fold (num_vals (concat rowss)) in SL.
      destruct (seen_spec true past held HE) as (S1 & S2 & S3 & _).
      assert (Q : (total (map fst (fst (col_all true (checks p) sz B cap [] [] rowss) ++ flush_block (seen true past held))) <= N.of_nat (length (concat rowss) * length (concat rowss)))%N).
      { apply total_few.
        - apply Forall_app. split; [exact A1|]. unfold flush_block. destruct (seen true past held) eqn:EQ; [constructor|]. rewrite <- EQ in *. constructor; [cbn [fst]; lia|constructor].
        - rewrite app_length. unfold flush_block. destruct (seen true past held) as [|x w0] eqn:EQ; [cbn; lia|]. rewrite <- EQ in *. cbn [length].
          assert (NE : seen true past held <> []) by (rewrite EQ; discriminate). pose proof (nonempty_num _ S2 NE) as NN. unfold num_vals in NN. rewrite S1 in NN. unfold num_vals in *. lia. }
      unfold total_rows in HT. unfold u32_max. nia. }
    destruct (all_blocks true (checks p) sz B cap rowss) as [bs|], (all_blocks false (checks p) sz B cap (map only_values rowss)) as [bs0|]; try contradiction.
    + pose proof (like_total _ _ VB) as LT. destruct (N.leb_spec (total (map fst bs)) u32_max) as [_|C]; [|lia]. destruct (N.leb_spec (total (map fst bs0)) u32_max) as [_|C]; [|lia].
      destruct Y as (w & ->), Y0 as (w0 & ->). split; intros [k K]; discriminate.
    + destruct Y as (k & -> & _), Y0 as (k0 & -> & _). split; intros _; eexists; reflexivity.
  - intros B items HB HF HT. change (2 ^ 32)%N with 4294967296%N in *.
    pose proof (C97_binary p B items HB HF ltac:(change (2 ^ 32 - 2)%N with 4294967294%N; lia)) as X. unfold is_panic.
    destruct (be_column_rows p B true items) as [[bs r]|k|], (be_column_rows p B false (map only_values items)) as [[bs0 r0]|k0|]; try contradiction.
    + split; intros [k K]; discriminate.
    + exfalso. pose proof (planned_few p true B items HB) as PF. change (2 ^ 32)%N with 4294967296%N in X. nia.
    + split; intros _; eexists; reflexivity.
Qed.
Print Assumptions C97_few_rows.

(** Nulls in the middle and at the end: the blocks of the values alone, each
    followed by the validity.  And a column without nulls: allowing them adds the
    validity and gives other row identifiers (C30) where a buffer is cut. *)
Example C97_witness :
  let v (n : N) := Some n in
  let rows := [[v 1; None; v 2; v 3; None]; [None; v 4; v 5]]%N in
  let items := [[Some [1]; None; Some [2; 2]; None]; [None; Some [3; 3; 3]; Some [4]; None]; [Some [5; 5]]]%N in
  pe_column_rows Debug 1 2 true rows
    = Ret ([(2, [2; 1; 2] ++ [3; 5]); (5, [2; 3; 4] ++ [3; 5]); (6, [1; 5] ++ [3; 1])]%N, Ok tt)
  /\ pe_column_rows Debug 1 2 false (map only_values rows) = Ret ([(1, [2; 1; 2]); (3, [2; 3; 4]); (4, [1; 5])]%N, Ok tt)
  /\ be_column_rows Debug 3 true items
    = Ret ([(2, [3; 1; 2; 2; 2; 1] ++ [3; 5]); (4, [3; 3; 3; 3; 2; 3] ++ [3; 2]); (6, [3; 4; 5; 5; 2; 1] ++ [3; 3])]%N, Ok tt)
  /\ be_column_rows Debug 3 false (map only_values items)
    = Ret ([(1, [3; 1; 2; 2; 2; 1]); (2, [3; 3; 3; 3; 2; 3]); (4, [3; 4; 5; 5; 2; 1])]%N, Ok tt)
  /\ map only_values [[v 7; v 8; v 9]]%N = [[v 7; v 8; v 9]]%N
  /\ pe_column_rows Debug 1 1 true [[v 7; v 8; v 9]]%N
    = Ret ([(0, [1; 7] ++ [3; 1]); (2, [1; 8] ++ [3; 1]); (5, [1; 9] ++ [3; 1])]%N, Ok tt)
  /\ pe_column_rows Debug 1 1 false [[v 7; v 8; v 9]]%N = Ret ([(0, [1; 7]); (1, [1; 8]); (2, [1; 9])]%N, Ok tt).
Proof. vm_compute. repeat split. Qed.
