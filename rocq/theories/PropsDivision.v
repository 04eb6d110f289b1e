(** C81: whether it makes a difference how the rows of a column are divided
    among buffers (raw/binary_enc.rs, raw/primitive_enc.rs); and C34 for a raw
    column found in the files. *)
From Verif Require Import Base BaseProofs Spec SpecRows SpecBin Varint VarintProofs Buffers Observe BitmapProofs BuffersProofs
  Rle RleProofs Offsets OffsetsProofs Sink PrimEnc BinEnc ObserveEnc ReadBlock ReadBinBlock RowsProofs BlockProofs PrimEncProofs PrimRunProofs
  PropsPrim PropsPrimRows PropsPrimIds PropsPrimAny PropsPrimAll BinBlockProofs BinEncProofs BinRunProofs PropsBin PropsBinRows PropsBinExact
  Io SpecIo IoProofs IoReadProofs PropsIo Metadata Names PropsNames Segment SpecSegment SegmentProofs SegmentRunProofs PropsSegment PropsSegmentEx PropsSegmentRef PropsReadBack.
From Coq Require Import Permutation.
Open Scope nat_scope.

(** * Nulls at the end of a buffer *)

(** The same rows but for the number of nulls at the end. *)
Definition alike {T} (a b : list (option T)) : Prop :=
  exists c n m, a = c ++ repeat None n /\ b = c ++ repeat None m.

Section Alike.
Context {T : Type}.
Implicit Types a b c : list (option T).

Lemma somes_nones n : somes (repeat (@None T) n) = [].
Proof. induction n; auto. Qed.

Lemma alike_somes a b : alike a b -> somes a = somes b.
Proof. intros (c & n & m & -> & ->). rewrite !somes_app, !somes_nones. reflexivity. Qed.

Lemma alike_num a b : alike a b -> num_vals a = num_vals b.
Proof. intros H. unfold num_vals. rewrite (alike_somes _ _ H). reflexivity. Qed.

Lemma take_nones n : forall c k, k <= num_vals c -> take_vals k (c ++ repeat None n) = take_vals k c.
Proof.
  unfold num_vals. induction c as [|[v|] c IH]; intros [|k] H; cbn [somes length] in H; cbn [app take_vals]; try lia; try reflexivity.
  - destruct (repeat None n); reflexivity.
  - f_equal. apply IH. lia.
  - f_equal. apply IH. lia.
Qed.

Lemma drop_nones n : forall c k, k <= num_vals c -> drop_vals k (c ++ repeat None n) = drop_vals k c ++ repeat None n.
Proof.
  unfold num_vals. induction c as [|[v|] c IH]; intros [|k] H; cbn [somes length] in H; cbn [app drop_vals]; try lia; try reflexivity.
  - destruct (repeat None n); reflexivity.
  - apply IH. lia.
  - apply IH. lia.
Qed.

Lemma alike_c a b : alike a b -> exists c n m, a = c ++ repeat None n /\ b = c ++ repeat None m /\ num_vals c = num_vals a.
Proof. intros (c & n & m & -> & ->). exists c, n, m. split; [reflexivity|]. split; [reflexivity|]. unfold num_vals. rewrite somes_app, somes_nones, app_nil_r. reflexivity. Qed.

Lemma alike_take a b k : alike a b -> k <= num_vals a -> take_vals k a = take_vals k b.
Proof. intros H L. destruct (alike_c _ _ H) as (c & n & m & -> & -> & E). rewrite <- E in L. rewrite !take_nones by exact L. reflexivity. Qed.

Lemma alike_drop a b k : alike a b -> k <= num_vals a -> alike (drop_vals k a) (drop_vals k b).
Proof. intros H L. destruct (alike_c _ _ H) as (c & n & m & -> & -> & E). rewrite <- E in L. rewrite !drop_nones by exact L. exists (drop_vals k c), n, m. auto. Qed.

Lemma alike_trim a b : alike a b -> trim a = trim b.
Proof. intros H. unfold trim. rewrite <- (alike_num _ _ H). apply alike_take; [exact H|lia]. Qed.

Lemma alike_windows cap fuel : forall a b, alike a b -> windows fuel cap a = windows fuel cap b /\ leftover fuel cap a = leftover fuel cap b.
Proof.
  induction fuel as [|fuel IH]; intros a b H; cbn [windows leftover].
  - split; [reflexivity|]. try apply alike_trim; try exact H; reflexivity.
  - rewrite (alike_num _ _ H). destruct (Nat.leb_spec cap (num_vals b)) as [L|L].
    + rewrite <- (alike_num _ _ H) in L. destruct (IH _ _ (alike_drop _ _ cap H L)) as [-> ->]. rewrite (alike_take _ _ cap H L). split; reflexivity.
    + split; [reflexivity|]. apply alike_trim. exact H.
Qed.

Lemma alike_cut cap a b : alike a b -> cut cap a = cut cap b.
Proof. intros H. unfold cut. rewrite (alike_num _ _ H). apply (alike_windows cap _ _ _ H). Qed.
Lemma alike_rest cap a b : alike a b -> rest_of cap a = rest_of cap b.
Proof. intros H. unfold rest_of. rewrite (alike_num _ _ H). apply (alike_windows cap _ _ _ H). Qed.

Lemma alike_col nl checked sz B cap (rowss rowss' : list (list (option T))) : Forall2 alike rowss rowss' ->
  forall past held, col_all nl checked sz B cap past held rowss = col_all nl checked sz B cap past held rowss'.
Proof.
  induction 1 as [|a b rowss rowss' H _ IH]; intros past held; [reflexivity|]. cbn [col_all].
  rewrite (alike_cut cap _ _ H), (alike_rest cap _ _ H), (alike_num _ _ H), IH. destruct held as [|x held0]; [reflexivity|].
  set (held := x :: held0). destruct (_ && checked); [reflexivity|].
  set (k := if (B <? N.of_nat (num_vals held * sz))%N then num_vals b else min (cap - num_vals held) (num_vals b)).
  assert (L : k <= num_vals a) by (rewrite (alike_num _ _ H); unfold k; destruct (_ <? _)%N; lia).
  cbn zeta. rewrite (alike_take _ _ k H L), (alike_cut cap _ _ (alike_drop _ _ k H L)), (alike_rest cap _ _ (alike_drop _ _ k H L)), !IH. reflexivity.
Qed.

End Alike.

Lemma fill_le items m k : SpecBin.fill m items = Some k -> k <= length items.
Proof. intros H. apply fill_some in H. tauto. Qed.

Lemma alike_bin_cut p nl B fuel : forall s pos (a b : list row), alike a b -> bin_cut p nl fuel B s pos a = bin_cut p nl fuel B s pos b.
Proof.
  induction fuel as [|fuel IH]; intros s pos a b H; cbn [bin_cut]; [reflexivity|]. rewrite <- (alike_somes _ _ H).
  destruct (SpecBin.fill B (somes a)) as [q|] eqn:F; [|rewrite (alike_trim _ _ H); reflexivity]. destruct (q <=? s); [reflexivity|]. cbn zeta.
  assert (L : q - s <= num_vals a) by (pose proof (fill_le _ _ _ F); unfold num_vals; lia).
  rewrite (alike_take _ _ _ H L), (IH q _ _ _ (alike_drop _ _ _ H L)). reflexivity.
Qed.

Lemma alike_bin_step p nl B past R (a b : list row) : alike a b -> bin_step p nl B past R a = bin_step p nl B past R b.
Proof.
  intros H. unfold bin_step. rewrite (alike_bin_cut p nl B _ _ _ _ _ H), (alike_num _ _ H), <- (alike_somes _ _ H), (alike_trim _ _ H). destruct R as [|x R0]; [reflexivity|].
  destruct (SpecBin.fill _ (somes a)) as [k|] eqn:F; [|reflexivity]. assert (L : k <= num_vals a) by (apply (fill_le _ _ _ F)). cbn zeta.
  rewrite (alike_take _ _ _ H L), (alike_bin_cut p nl B _ _ _ _ _ (alike_drop _ _ _ H L)). reflexivity.
Qed.

Lemma alike_bin_run p nl B rowss rowss' : Forall2 alike rowss rowss' -> forall past R, bin_run p nl B past R rowss = bin_run p nl B past R rowss'.
Proof.
  induction 1 as [|a b rowss rowss' H _ IH]; intros past R; [reflexivity|]. cbn [bin_run]. rewrite (alike_bin_step p nl B past R _ _ H).
  destruct (bin_step p nl B past R b) as [past' [items [R'|k]]]; [rewrite IH|]; reflexivity.
Qed.

(** Nulls at the end of a buffer leave no trace, in no column: whether there are
    some, and how many, the blocks are the same, and so is whether there is a
    panic. *)
Theorem C81_trailing_nulls_binary_partial : forall p B nl rowss rowss' r,
  (0 < B)%N -> Forall (rows_allowed nl) rowss -> Forall (rows_allowed nl) rowss' ->
  Forall (fun r => B + N.of_nat (length (concat (somes r))) < 2 ^ 32)%N rowss ->
  (N.of_nat (length (concat rowss)) <= 2 ^ 32 - 2)%N -> (N.of_nat (length (concat rowss')) <= 2 ^ 32 - 2)%N ->
  Forall2 alike rowss rowss' ->
  be_column_rows p B nl rowss = Ret r <-> be_column_rows p B nl rowss' = Ret r.
Proof.
  intros p B nl rowss rowss' r HB HA HA' HF HL HL' HR. change (2 ^ 32)%N with 4294967296%N in HF.
  assert (HF1 : Forall (fun r => B + N.of_nat (bytes_of r) <= u32_max)%N rowss).
  { eapply Forall_impl; [|exact HF]. unfold u32_max, bytes_of. cbn. intros; lia. }
  assert (HF2 : Forall (fun r => B + N.of_nat (bytes_of r) <= u32_max)%N rowss').
  { clear -HF1 HR. induction HR as [|a b rowss rowss' H _ IH]; constructor; inversion HF1; subst; [|auto]. unfold bytes_of in *. rewrite <- (alike_somes _ _ H). assumption. }
  pose proof (be_column_rows_ok p B nl rowss HB HA HF1 HL) as X. pose proof (be_column_rows_ok p B nl rowss' HB HA' HF2 HL') as Y.
  assert (E : bin_blocks p nl B rowss = bin_blocks p nl B rowss') by (unfold bin_blocks; rewrite (alike_bin_run p nl B _ _ HR); reflexivity).
  rewrite <- E in Y. cbn zeta in X, Y. destruct (writable 0 (fst (bin_blocks p nl B rowss))); [rewrite X, Y; tauto|].
  destruct X as [k ->], Y as [k' ->]. split; discriminate.
Qed.
Print Assumptions C81_trailing_nulls_binary_partial.

(** The same for fixed-width columns, as far as rows can be read from the
    blocks. *)
Theorem C81_trailing_nulls_fixed_partial : forall p sz B cap nl bufs bufs' rowss rowss',
  0 < sz -> (N.of_nat sz < 2 ^ 31)%N -> (0 < B < 2 ^ 32)%N ->
  (B <= N.of_nat (cap * sz) < B + N.of_nat sz)%N ->
  Forall2 (fun b rows => pb_holds b nl rows) bufs rowss -> Forall2 (fun b rows => pb_holds b nl rows) bufs' rowss' ->
  (total_rows rowss <= 2 ^ 32 - 8)%N -> (total_rows rowss' <= 2 ^ 32 - 8)%N -> Forall (fit sz) rowss ->
  Forall2 alike rowss rowss' ->
  (exists k, pe_column p sz B nl bufs = Panic k /\ pe_column p sz B nl bufs' = Panic k)
  \/ exists written written' ws, pe_column p sz B nl bufs = Ret (written, Ok tt) /\ pe_column p sz B nl bufs' = Ret (written', Ok tt)
       /\ map fst written = map fst written' /\ reads_blocks p sz nl written ws /\ reads_blocks p sz nl written' ws.
Proof.
  intros p sz B cap nl bufs bufs' rowss rowss' Hs Hz HB HF HH HH' HT HT' HV HR.
  assert (HV' : Forall (fit sz) rowss').
  { clear -HV HR. induction HR as [|a b rowss rowss' H _ IH]; constructor; inversion HV; subst; [|auto]. unfold fit in *. rewrite <- (alike_somes _ _ H). assumption. }
  pose proof (C29_every_column_exact p sz B cap nl bufs rowss Hs Hz HB HF HH HT HV) as X. pose proof (C29_every_column_exact p sz B cap nl bufs' rowss' Hs Hz HB HF HH' HT' HV') as Y.
  rewrite <- (alike_col nl (checks p) sz B cap _ _ HR) in Y. cbn zeta in X, Y. set (run := col_all nl (checks p) sz B cap [] [] rowss) in *.
  destruct (snd run) as [[past held]|]; (destruct (_ <=? u32_max)%N; [|left; eexists; split; eassumption]).
  - right. destruct X as (w & X1 & X2 & X3), Y as (w' & Y1 & Y2 & Y3). exists w, w', (map snd (fst run ++ flush_block (seen nl past held))).
    split; [exact X1|]. split; [exact Y1|]. split; [congruence|]. split; [exact X3|exact Y3].
  - left. eexists. split; eassumption.
Qed.
Print Assumptions C81_trailing_nulls_fixed_partial.

(** * Buffers that are not larger than a block *)

(** Rows are collected until they have [B] bytes; then they are a block. *)
Fixpoint in_turn (B : N) (held rows : list (option (list N))) : list (list (option (list N))) * list (option (list N)) :=
  match rows with
  | [] => ([], held)
  | r :: rest =>
      let held' := held ++ [r] in
      if (B <=? N.of_nat (length (concat (somes held'))))%N then (held' :: fst (in_turn B [] rest), snd (in_turn B [] rest))
      else in_turn B held' rest
  end.

(** What is left over is the last block, if there is anything. *)
Definition blocks_in_turn (B : N) (rows : list (option (list N))) : list (list (option (list N))) :=
  match in_turn B [] rows with
  | (ws, []) => ws
  | (ws, held) => ws ++ [held]
  end.

Lemma in_turn_app B b : forall a held, in_turn B held (a ++ b)
  = (fst (in_turn B held a) ++ fst (in_turn B (snd (in_turn B held a)) b), snd (in_turn B (snd (in_turn B held a)) b)).
Proof.
  induction a as [|r a IH]; intros held; cbn [app in_turn fst snd]; [destruct (in_turn B held b); reflexivity|].
  destruct (B <=? _)%N; [|apply IH]. rewrite IH. reflexivity.
Qed.

Lemma in_turn_few B : forall b held, (N.of_nat (bytes_of (held ++ b)) < B)%N -> in_turn B held b = ([], held ++ b).
Proof.
  induction b as [|r b IH]; intros held H; cbn [in_turn]; [rewrite app_nil_r; reflexivity|].
  replace (held ++ r :: b) with ((held ++ [r]) ++ b) in * by (rewrite <- app_assoc; reflexivity). rewrite bytes_app in H. cbn zeta.
  destruct (N.leb_spec B (N.of_nat (length (concat (somes (held ++ [r])))))) as [L|L]; [unfold bytes_of in H; lia|].
  apply IH. rewrite bytes_app. exact H.
Qed.

Lemma in_turn_one B held b x : (N.of_nat (bytes_of (held ++ b)) < B)%N -> (B <= N.of_nat (bytes_of (held ++ b ++ [x])))%N ->
  in_turn B held (b ++ [x]) = ([held ++ b ++ [x]], []).
Proof.
  intros H1 H2. rewrite in_turn_app, (in_turn_few B b held H1). cbn [fst snd in_turn app].
  rewrite <- app_assoc. unfold bytes_of in H2. destruct (N.leb_spec B (N.of_nat (length (concat (somes (held ++ b ++ [x])))))); [reflexivity|lia].
Qed.

Lemma full_take {T} : forall (b : list (option T)) k, full b -> take_vals k b = firstn k b /\ drop_vals k b = skipn k b.
Proof.
  induction b as [|[v|] b IH]; intros [|k] F; cbn [take_vals drop_vals firstn skipn]; try (split; reflexivity); inversion F; subst; [|discriminate].
  destruct (IH k ltac:(assumption)) as [-> ->]. split; reflexivity.
Qed.

Lemma full_firstn {T} (b : list (option T)) k : full b -> full (firstn k b) /\ full (skipn k b).
Proof. intros F. rewrite <- (firstn_skipn k b) in F. apply Forall_app. exact F. Qed.

Lemma full_somes {T} (b : list (option T)) k : full b -> somes (firstn k b) = firstn k (somes b).
Proof. intros F. destruct (full_take b k F) as [<- _]. apply take_somes. Qed.

Lemma step_nothing p nl B past R b X : bin_step p nl B past R b = (past, ([], Held X)) -> (0 < B)%N -> (N.of_nat (bytes_of R) < B)%N ->
  (N.of_nat (bytes_of (R ++ b)) < B)%N.
Proof.
  intros H HB HR. unfold bin_step in H. rewrite bytes_app. destruct R as [|x R0].
  - injection H as H. cbn [bin_cut] in H. destruct (SpecBin.fill B (somes b)) as [q|] eqn:F.
    + pose proof (fill_pos _ _ _ F HB). destruct (Nat.leb_spec q 0); [lia|]. discriminate H.
    + apply fill_none in F. exact F.
  - set (R := x :: R0) in *. destruct (SpecBin.fill _ (somes b)) as [k|] eqn:F; [discriminate H|].
    apply fill_none in F. unfold bytes_of in *. unfold cbytes in F. lia.
Qed.

Definition item_of (w : list (option (list N))) : bin_item := mk_item (length w) w [].

Lemma run_in_turn p nl B : (0 < B)%N -> forall rowss past R, full R -> (N.of_nat (bytes_of R) < B)%N ->
  Forall full rowss -> Forall (fun b => N.of_nat (bytes_of b) <= B)%N rowss ->
  exists past', bin_run p nl B past R rowss = (past', (map item_of (fst (in_turn B R (concat rowss))), Held (snd (in_turn B R (concat rowss)))))
    /\ full (snd (in_turn B R (concat rowss))).
Proof.
  intros HB. induction rowss as [|b rowss IH]; intros past R FR HR FU SM; cbn [bin_run concat].
  - exists past. split; [reflexivity|exact FR].
  - apply Forall_cons_iff in FU, SM. destruct FU as [Fb FU], SM as [Sb SM]. rewrite in_turn_app.
    destruct (step_small p nl B past R b HB (full_ends R FR) HR Sb) as [E|(k & past' & w & K1 & K2 & E & W & _ & J & G)]; rewrite E.
    + pose proof (step_nothing _ _ _ _ _ _ _ E HB HR) as L. rewrite (full_trim b Fb). rewrite (in_turn_few B b R L). cbn [fst snd app].
      assert (FRb : full (R ++ b)) by (apply full_app; auto).
      destruct (IH past (R ++ b) FRb L FU SM) as (past'' & -> & F'). exists past''. split; [reflexivity|exact F'].
    + destruct (full_take b k Fb) as [T D]. destruct (full_firstn b k Fb) as [F1 F2]. rewrite T, D in *. rewrite (full_trim _ F2).
      assert (EW : w = R ++ firstn k b) by (destruct W as [-> |[_ ->]]; [reflexivity|apply full_seen; apply full_app; auto]). clear W. subst w.
      assert (LK : k <= length b) by (pose proof (somes_length_le b); unfold num_vals in K1; lia).
      assert (ONE : in_turn B R (firstn k b) = ([R ++ firstn k b], [])).
      { destruct k as [|j]; [lia|]. destruct (nth_error b j) as [x|] eqn:NE; [|apply nth_error_None in NE; lia].
        assert (EF : firstn (S j) b = firstn j b ++ [x]).
        { clear -NE. revert j NE. induction b as [|y b IHb]; intros [|j] NE; cbn in *; try discriminate; [congruence|]. f_equal. apply IHb. exact NE. }
        rewrite EF in *. apply in_turn_one; [|exact G]. specialize (J j ltac:(lia)). rewrite bytes_app. unfold bytes_of in *. rewrite (full_somes b j Fb). unfold cbytes in J. lia. }
      assert (REST : (N.of_nat (bytes_of (skipn k b)) < B)%N).
      { assert (bytes_of (firstn k b) + bytes_of (skipn k b) = bytes_of b) by (rewrite <- bytes_app, firstn_skipn; reflexivity).
        rewrite bytes_app in G. lia. }
      assert (WHOLE : in_turn B R b = ([R ++ firstn k b], skipn k b)).
      { rewrite <- (firstn_skipn k b) at 1. rewrite in_turn_app, ONE. cbn [fst snd]. rewrite (in_turn_few B (skipn k b) [] REST). reflexivity. }
      rewrite WHOLE. cbn [fst snd]. destruct (IH past' (skipn k b) F2 REST FU SM) as (past'' & -> & F'). exists past''. split; [|exact F'].
      cbn [fst snd app map]. reflexivity.
Qed.

Lemma planned_in_turn p nl B rowss : (0 < B)%N -> Forall full rowss -> Forall (fun b => N.of_nat (length (concat (somes b))) <= B)%N rowss ->
  planned_blocks p nl B rowss = (map item_of (blocks_in_turn B (concat rowss)), None).
Proof.
  intros HB FU SM. destruct (run_in_turn p nl B HB rowss [] [] (Forall_nil _) HB FU SM) as (past' & E & F).
  unfold planned_blocks, blocks_in_turn. rewrite E. destruct (in_turn B [] (concat rowss)) as [ws [|x held]]; cbn [fst snd] in *; [reflexivity|].
  rewrite (full_seen nl past' _ F), map_app. reflexivity.
Qed.

Lemma in_turn_concat B : forall rows held, concat (fst (in_turn B held rows)) ++ snd (in_turn B held rows) = held ++ rows.
Proof.
  induction rows as [|r rows IH]; intros held; cbn [in_turn]; [cbn; rewrite app_nil_r; reflexivity|]. cbn zeta.
  destruct (B <=? _)%N; [|rewrite IH, <- app_assoc; reflexivity]. cbn [fst snd concat]. rewrite <- !app_assoc, IH. reflexivity.
Qed.

Lemma in_turn_some B : forall rows held, Forall (fun w => w <> []) (fst (in_turn B held rows)).
Proof.
  induction rows as [|r rows IH]; intros held; cbn [in_turn]; [constructor|]. cbn zeta. destruct (B <=? _)%N; [|apply IH].
  constructor; [destruct held; discriminate|apply IH].
Qed.

Lemma blocks_in_turn_spec B rows : concat (blocks_in_turn B rows) = rows /\ Forall (fun w => w <> []) (blocks_in_turn B rows).
Proof.
  unfold blocks_in_turn. pose proof (in_turn_concat B rows []) as C. pose proof (in_turn_some B rows []) as O.
  destruct (in_turn B [] rows) as [ws [|x held]]; cbn [fst snd app] in *; [rewrite app_nil_r in C; auto|].
  rewrite concat_app. cbn [concat]. rewrite app_nil_r. split; [exact C|]. apply Forall_app. split; [exact O|]. constructor; [discriminate|constructor].
Qed.

Lemma counted_ids : forall ws from, PropsBinExact.counted from (map item_of ws) = row_ids from (map (@length _) ws).
Proof. induction ws as [|w ws IH]; intros from; cbn [map PropsBinExact.counted item_of it_count row_ids]; [reflexivity|]. rewrite IH. reflexivity. Qed.

Lemma full_concat {T} : forall (ws : list (list (option T))), full (concat ws) -> Forall full ws.
Proof. induction ws as [|w ws IH]; intros F; constructor; cbn [concat] in F; apply full_app in F; [tauto|apply IH; tauto]. Qed.

Lemma full_length {T} (w : list (option T)) : full w -> length (somes w) = length w.
Proof. induction 1 as [|[v|] w H _ IH]; [reflexivity|cbn; f_equal; exact IH|discriminate]. Qed.

Lemma in_turn_writable B rows : full rows -> (N.of_nat (length rows) < 2 ^ 32)%N ->
  can_be_written (map item_of (blocks_in_turn B rows)) <-> Forall (fun w => length w <= 128) (blocks_in_turn B rows).
Proof.
  intros F L. destruct (blocks_in_turn_spec B rows) as [C _]. assert (FW : Forall full (blocks_in_turn B rows)) by (apply full_concat; rewrite C; exact F).
  assert (SUM : list_sum (map it_count (map item_of (blocks_in_turn B rows))) = length rows).
  { rewrite <- C at 2. generalize (blocks_in_turn B rows) as ws. induction ws as [|w ws IH]; [reflexivity|]. cbn [map concat item_of it_count]. rewrite app_length. unfold list_sum in *. cbn [fold_right]. rewrite IH. reflexivity. }
  unfold can_be_written. rewrite SUM, Forall_map. cbn [item_of it_rows].
  split; [intros [A _]|intros A; split; [|exact L]]; rewrite Forall_forall in *; intros w I; specialize (A w I); rewrite (full_length w (FW w I)) in *; exact A.
Qed.

(** Without nulls, and if no buffer has more data than a block, a binary column
    is cut as described by [in_turn]: the buffers play no role. *)
Theorem C81_small_buffers_partial : forall p B nl rowss,
  (0 < B)%N -> Forall full rowss -> Forall (fun r => N.of_nat (length (concat (somes r))) <= B)%N rowss ->
  (2 * B < 2 ^ 32)%N -> (N.of_nat (length (concat rowss)) <= 2 ^ 32 - 2)%N ->
  let ws := blocks_in_turn B (concat rowss) in
  (Forall (fun w => length w <= 128) ws ->
     exists blocks, be_column_rows p B nl rowss = Ret (blocks, Ok tt)
       /\ ids_right (map fst blocks) ws
       /\ Forall2 (fun w block => layout p nl w [] (snd block)) ws blocks)
  /\ (~ Forall (fun w => length w <= 128) ws -> is_panic (be_column_rows p B nl rowss))
  /\ concat ws = concat rowss.
Proof.
  intros p B nl rowss HB FU SM H2 HL ws. unfold ws. destruct (blocks_in_turn_spec B (concat rowss)) as [C O].
  assert (FC : full (concat rowss)) by (clear -FU; induction FU; cbn [concat]; [constructor|apply full_app; auto]).
  assert (HA : Forall (rows_allowed nl) rowss) by (eapply Forall_impl; [|exact FU]; intros r F; right; exact F).
  change (2 ^ 32 - 2)%N with 4294967294%N in HL. change (2 ^ 32)%N with 4294967296%N in H2.
  assert (HF : Forall (fun r => B + N.of_nat (length (concat (somes r))) < 2 ^ 32)%N rowss).
  { eapply Forall_impl; [|exact SM]. cbv beta. change (2 ^ 32)%N with 4294967296%N. intros r L. clear -L H2. lia. }
  pose proof (C34_column_exact p B nl rowss HB HA HF HL) as X. rewrite (planned_in_turn p nl B rowss HB FU SM) in X. destruct X as (X1 & _ & X3).
  assert (L : (N.of_nat (length (concat rowss)) < 2 ^ 32)%N) by (change (2 ^ 32)%N with 4294967296%N; clear -HL; lia).
  pose proof (in_turn_writable B (concat rowss) FC L) as W.
  split; [|split; [|exact C]].
  - intros F. destruct (X1 (proj2 W F) eq_refl) as (blocks & E & I & LY). exists blocks. split; [exact E|]. split.
    + rewrite I, counted_ids. destruct (ids_of_lengths _ O 0%N) as [A1 A2]. split; [exact A1|]. intros i id NE. specialize (A2 i id NE). rewrite N.add_0_l in A2. exact A2.
    + clear -LY. revert blocks LY. generalize (blocks_in_turn B (concat rowss)) as ws. induction ws as [|w ws IH]; intros blocks LY; inversion LY; subst; constructor; auto.
  - intros NF. apply X3. intros Y. apply NF, W, Y.
Qed.
Print Assumptions C81_small_buffers_partial.

(** So a division of the same rows among other buffers of this kind gives the
    same blocks. *)
Theorem C81_division_partial : forall p B nl rowss rowss' r,
  (0 < B)%N -> (2 * B < 2 ^ 32)%N -> Forall full rowss ->
  Forall (fun r => N.of_nat (length (concat (somes r))) <= B)%N rowss -> Forall (fun r => N.of_nat (length (concat (somes r))) <= B)%N rowss' ->
  (N.of_nat (length (concat rowss)) <= 2 ^ 32 - 2)%N ->
  concat rowss = concat rowss' ->
  be_column_rows p B nl rowss = Ret r <-> be_column_rows p B nl rowss' = Ret r.
Proof.
  intros p B nl rowss rowss' r HB H2 FU SM SM' HL E.
  assert (FC : full (concat rowss)) by (clear -FU; induction FU; cbn [concat]; [constructor|apply full_app; auto]).
  assert (FU' : Forall full rowss') by (apply full_concat; rewrite <- E; exact FC).
  assert (OK : forall rs, Forall full rs -> Forall (fun r => N.of_nat (length (concat (somes r))) <= B)%N rs ->
    Forall (rows_allowed nl) rs /\ Forall (fun r => B + N.of_nat (bytes_of r) <= u32_max)%N rs).
  { intros rs F M. split; [eapply Forall_impl; [|exact F]; intros x Fx; right; exact Fx|]. eapply Forall_impl; [|exact M]. cbv beta. change (2 ^ 32)%N with 4294967296%N in H2. unfold bytes_of, u32_max. intros x L. clear -L H2. lia. }
  destruct (OK _ FU SM) as [A1 A2], (OK _ FU' SM') as [A1' A2'].
  pose proof (be_column_rows_ok p B nl rowss HB A1 A2 HL) as X. rewrite E in HL. pose proof (be_column_rows_ok p B nl rowss' HB A1' A2' HL) as Y.
  rewrite <- planned_is, (planned_in_turn p nl B _ HB FU SM) in X. rewrite <- planned_is, (planned_in_turn p nl B _ HB FU' SM') in Y. rewrite <- E in Y.
  cbn zeta in X, Y. cbn [fst snd] in X, Y. destruct (writable 0 _); [rewrite X, Y; tauto|]. destruct X as [k ->], Y as [k' ->]. split; discriminate.
Qed.
Print Assumptions C81_division_partial.

Lemma nth_error_same {T} : forall (a b : list T), length a = length b -> (forall i x y, nth_error a i = Some x -> nth_error b i = Some y -> x = y) -> a = b.
Proof.
  induction a as [|x a IH]; intros [|y b] L H; try discriminate L; [reflexivity|]. f_equal; [apply (H 0); reflexivity|].
  apply IH; [injection L as L; exact L|]. intros i u v A1 A2. apply (H (S i)); assumption.
Qed.

Lemma same_cut {T} (n : nat) : forall (ws ws' : list (list T)) last last', 0 < n ->
  Forall (fun w => length w = n) ws -> Forall (fun w => length w = n) ws' -> length last < n -> length last' < n ->
  concat ws ++ last = concat ws' ++ last' -> ws = ws' /\ last = last'.
Proof.
  induction ws as [|w ws IH]; intros [|w' ws'] last last' P F F' L L' E; cbn [concat app] in E.
  - split; [reflexivity|exact E].
  - exfalso. inversion F' as [|? ? LW' _]. rewrite E, !app_length in L. lia.
  - exfalso. inversion F as [|? ? LW _]. rewrite <- E, !app_length in L'. lia.
  - inversion F as [|? ? LW FW]; inversion F' as [|? ? LW' FW']; subst. rewrite <- !app_assoc in E.
    assert (EW : w = w').
    { apply (f_equal (firstn (length w))) in E. rewrite !firstn_app, firstn_all, <- LW', firstn_all, Nat.sub_diag in E. cbn [firstn] in E. rewrite !app_nil_r in E. exact E. }
    subst w'. apply app_inv_head in E. destruct (IH ws' last last' P FW FW' L L' E) as [-> ->]. split; reflexivity.
Qed.

Lemma ids_right_same {T} ids ids' (ws : list (list T)) : ids_right ids ws -> ids_right ids' ws -> ids = ids'.
Proof.
  intros [L A] [L' A']. apply nth_error_same; [congruence|].
  intros i id id' N1 N2. specialize (A i id N1). specialize (A' i id' N2). lia.
Qed.

(** Values of one byte without nulls, too, whatever the buffers. *)
Theorem C81_one_byte_partial : forall p B bufs bufs' rowss rowss',
  (0 < B < 2 ^ 32)%N ->
  Forall2 (fun b rows => pb_holds b false rows) bufs rowss -> Forall2 (fun b rows => pb_holds b false rows) bufs' rowss' ->
  (total_rows rowss <= 2 ^ 32 - 8)%N -> Forall (fit 1) rowss -> concat rowss = concat rowss' ->
  exists written written' ws, pe_column p 1 B false bufs = Ret (written, Ok tt) /\ pe_column p 1 B false bufs' = Ret (written', Ok tt)
    /\ map fst written = map fst written' /\ reads_blocks p 1 false written ws /\ reads_blocks p 1 false written' ws.
Proof.
  intros p B bufs bufs' rowss rowss' HB HH HH' HT HV E.
  assert (HT' : (total_rows rowss' <= 2 ^ 32 - 8)%N) by (unfold total_rows in *; rewrite <- E; exact HT).
  assert (FC : forall rs : list (list (option N)), Forall (fit 1) rs <-> fit 1 (concat rs)).
  { unfold fit. intros rs. induction rs as [|r rs IH]; cbn [concat]; [split; constructor|]. rewrite somes_app, Forall_app, Forall_cons_iff, IH. tauto. }
  assert (HV' : Forall (fit 1) rowss') by (rewrite FC, <- E, <- FC; exact HV).
  destruct (C29_one_byte p B bufs rowss HB HH HT HV) as (w & ws & last & R & RB & ID & C & F & L).
  destruct (C29_one_byte p B bufs' rowss' HB HH' HT' HV') as (w' & ws' & last' & R' & RB' & ID' & C' & F' & L').
  assert (X : ws = ws' /\ last = last').
  { apply (same_cut (N.to_nat B)); [lia| | |lia|lia|congruence]; (eapply Forall_impl; [|eassumption]); cbv beta; intros; lia. }
  destruct X as [-> ->]. exists w, w', (with_held ws' last'). split; [exact R|]. split; [exact R'|].
  split; [exact (ids_right_same _ _ _ ID ID')|]. split; assumption.
Qed.
Print Assumptions C81_one_byte_partial.

(** ** Not in general *)

(** A property of the rows read from a column's blocks: they do not depend on
    how the rows were divided among buffers.  For fixed-width columns: *)
Definition C81_fixed_statement : Prop :=
  forall p sz B nl rowss rowss' written written' ws,
    0 < sz -> (0 < B)%N -> Forall (fit sz) rowss -> Forall (rows_allowed nl) rowss ->
    concat rowss = concat rowss' ->
    pe_column_rows p sz B nl rowss = Ret (written, Ok tt) -> pe_column_rows p sz B nl rowss' = Ret (written', Ok tt) ->
    reads_blocks p sz nl written ws ->
    exists ws', reads_blocks p sz nl written' ws' /\ concat ws = concat ws'.

(** and for binary ones, where it is enough to look at the data in the blocks. *)
Definition C81_binary_statement : Prop :=
  forall p B nl rowss rowss' blocks blocks',
    (0 < B)%N -> Forall (rows_allowed nl) rowss -> concat rowss = concat rowss' ->
    be_column_rows p B nl rowss = Ret (blocks, Ok tt) -> be_column_rows p B nl rowss' = Ret (blocks', Ok tt) ->
    exists ws ws', Forall2 (fun w b => layout p nl w [] (snd b)) ws blocks /\ Forall2 (fun w b => layout p nl w [] (snd b)) ws' blocks'
      /\ concat ws = concat ws'.

(** One value and then seventeen, or all eighteen at once. *)
Theorem C81_fixed_refuted : ~ C81_fixed_statement.
Proof.
  intros H. set (a := [repeat (Some 2) 18]%N). set (b := [[Some 2]; repeat (Some 2) 17]%N).
  destruct (pe_column_rows Release 8 128 false a) as [[w [[]|]]| |] eqn:E1; pose proof E1 as V1; vm_compute in V1; try discriminate V1.
  destruct (pe_column_rows Release 8 128 false b) as [[w' [[]|]]| |] eqn:E2; pose proof E2 as V2; vm_compute in V2; try discriminate V2.
  injection V1 as V1. injection V2 as V2.
  assert (R : reads_blocks Release 8 false w [repeat (Some 2%N) 16; repeat (Some 2%N) 2]) by (rewrite <- V1; vm_compute; reflexivity).
  assert (R' : reads_blocks Release 8 false w' [repeat (Some 2%N) 16]) by (rewrite <- V2; vm_compute; reflexivity).
  assert (F : Forall (fit 8) a) by (unfold a; repeat constructor). assert (A : Forall (rows_allowed false) a) by (constructor; [right; repeat constructor|constructor]).
  destruct (H Release 8 128%N false a b w w' _ ltac:(lia) ltac:(lia) F A eq_refl E1 E2 R) as (ws' & RW & C).
  unfold reads_blocks in R', RW. rewrite R' in RW. destruct ws' as [|x [|y ws']]; try discriminate RW. injection RW as <-. vm_compute in C. discriminate C.
Qed.
Print Assumptions C81_fixed_refuted.

Lemma layout_one p nl w extra b b' : layout p nl w extra b -> layout p nl w extra b' -> b = b'.
Proof.
  intros (s & pl & l & v & A & C & D & ->) (s' & pl' & l' & v' & A' & C' & D' & ->). rewrite A in A'. rewrite C in C'. injection A' as <-. injection C' as <- <-.
  destruct nl; [rewrite D in D'; injection D' as <-; reflexivity|rewrite D, D'; reflexivity].
Qed.

(** A null between two values, or at the end of the first buffer. *)
Theorem C81_binary_refuted : ~ C81_binary_statement.
Proof.
  intros H. set (a := [[Some [1]; None; Some [2]]]%N). set (b := [[Some [1]; None]; [Some [2]]]%N).
  destruct (be_column_rows Release 128 true a) as [[w [[]|]]| |] eqn:E1; pose proof E1 as V1; vm_compute in V1; try discriminate V1.
  destruct (be_column_rows Release 128 true b) as [[w' [[]|]]| |] eqn:E2; pose proof E2 as V2; vm_compute in V2; try discriminate V2.
  injection V1 as V1. injection V2 as V2.
  destruct (H Release 128%N true a b w w') as (ws & ws' & L & L' & C); [lia|unfold a; repeat constructor|reflexivity|exact E1|exact E2|].
  rewrite <- V1 in L. rewrite <- V2 in L'. clear -L L' C.
  inversion L as [|x y l l' LY1 T1]; subst. inversion T1; subst. inversion L' as [|x' y' m m' LY2 T2]; subst. inversion T2; subst. cbn [concat] in C. rewrite !app_nil_r in C. subst x'.
  pose proof (layout_one _ _ _ _ _ _ LY1 LY2) as E. discriminate E.
Qed.
Print Assumptions C81_binary_refuted.

(** * In the files *)

(** Columns with the same blocks leave the same files. *)
Lemma same_blocks_files : forall d p w base info w1 sg a ci cops cops' c it w2 sg2 rs w2' sg2' rs',
  0 < wd_max w -> is_id (si_segment_id info) -> segment_new w base info = (w1, Ok sg) ->
  orders_ok ((a ++ SColumn ci (cops ++ [CClose]) :: c) ++ [SClose it]) ->
  seg_run p w1 sg ((a ++ SColumn ci (cops ++ [CClose]) :: c) ++ [SClose it]) = Ret (w2, sg2, rs) -> all_ok rs ->
  seg_run p w1 sg ((a ++ SColumn ci (cops' ++ [CClose]) :: c) ++ [SClose it]) = Ret (w2', sg2', rs') -> all_ok rs' ->
  (forall bl, column_blocks p ci (cops ++ [CClose]) = Ret bl -> column_blocks p ci (cops' ++ [CClose]) = Ret bl) ->
  outline [SColumn ci (cops ++ [CClose])] = outline [SColumn ci (cops' ++ [CClose])] ->
  directory_after d (wd_log w2) (index_path base (si_segment_id info)) = directory_after d (wd_log w2') (index_path base (si_segment_id info))
  /\ directory_after d (wd_log w2) (data_path base (si_segment_id info)) = directory_after d (wd_log w2') (data_path base (si_segment_id info)).
Proof.
  intros d p w base info w1 sg a ci cops cops' c it w2 sg2 rs w2' sg2' rs' M ID N O H A H' A' SB OL.
  assert (O' : orders_ok ((a ++ SColumn ci (cops' ++ [CClose]) :: c) ++ [SClose it])).
  { unfold orders_ok in *. rewrite !Forall_app in *. destruct O as [[O1 O2] O3]. split; [|exact O3]. split; [exact O1|]. apply Forall_cons_iff in O2. destruct O2 as [_ O2]. constructor; [exact I|exact O2]. }
  split.
  - refine (C48_index_says_nothing_partial d d p p w w base base info _ _ _ _ _ _ _ _ _ _ _ _ _ M M ID N N O O' H A H' A' _).
    unfold outline in *. rewrite !flat_map_app. f_equal. cbn [flat_map] in *. rewrite !app_nil_r in OL. rewrite OL. reflexivity.
  - destruct (C45_data_file d _ _ _ _ _ _ _ _ _ _ _ M ID N O H A) as (bl & B & ->). destruct (C45_data_file d _ _ _ _ _ _ _ _ _ _ _ M ID N O' H' A') as (bl' & B' & ->).
    rewrite segment_blocks_app in B, B'. cbn [segment_blocks] in B, B'.
    destruct (segment_blocks p a) as [ba|k|]; [|discriminate B..]. cbn [bind] in B, B'.
    destruct (column_blocks p ci (cops ++ [CClose])) as [bc|k|]; [|discriminate B..]. rewrite (SB bc eq_refl) in B'. rewrite B in B'. injection B' as ->. reflexivity.
Qed.

Lemma finish_encoder_run p bufs : forall e acc e' blocks, be_finish collect p e bufs acc = Ret (e', blocks, Ok tt) ->
  encoder_run p (RawEnc e) (map CWrite bufs ++ [CClose]) acc = Ret blocks.
Proof.
  unfold be_finish. induction bufs as [|b bufs IH]; intros e acc e' blocks H; cbn [map app encoder_run be_encodes bin_encode bin_flush] in *.
  - cbn [bind] in H. rewrite H. reflexivity.
  - destruct (be_encode collect p _ e b acc) as [[[e1 acc1] res]|k|] eqn:E; cbn [bind] in H |- *; try discriminate H.
    destruct (be_encode_back collect p _ _ _ _ _ _ _ E) as (bl & -> & _). apply (IH _ _ _ _ H).
Qed.

Lemma raw_blocks p ci rowss bufs bl : ci_encoding ci = Raw -> bb_fill (ci_nullable ci) rowss = Ret bufs ->
  column_blocks p ci (map CWrite bufs ++ [CClose]) = Ret bl <-> be_column_rows p 128 (ci_nullable ci) rowss = Ret (bl, Ok tt).
Proof.
  intros RAW FILL. unfold column_blocks, be_column_rows, be_column. rewrite RAW, FILL. cbn [new_binary_encoder bind]. split.
  - intros H. destruct (encoder_run_finish p bufs _ _ _ H) as [e' ->]. reflexivity.
  - intros H. destruct (be_finish collect p (be_new 128 (ci_nullable ci)) bufs []) as [[[e' b] res]|k|] eqn:E; cbn [bind] in H; try discriminate H.
    injection H as -> ->. apply (finish_encoder_run p bufs _ _ _ _ E).
Qed.

Lemma outline_writes ci bufs bufs' : outline [SColumn ci (map CWrite bufs ++ [CClose])] = outline [SColumn ci (map CWrite bufs' ++ [CClose])].
Proof.
  assert (E : forall b, outline [SColumn ci (map CWrite b ++ [CClose])] = outline [SColumn ci [CClose]]); [|rewrite !E; reflexivity].
  intros b. unfold outline. cbn [flat_map]. rewrite !app_nil_r. cbn [marks_in]. induction b as [|x b IH]; [reflexivity|]. exact IH.
Qed.

(** Where nulls stood at the ends of buffers cannot be found out from the
    files of a segment, nor how many there were. *)
Theorem C81_files_partial : forall d p w base info w1 sg a ci rowss rowss' bufs bufs' c it w2 sg2 rs w2' sg2' rs',
  0 < wd_max w -> is_id (si_segment_id info) -> segment_new w base info = (w1, Ok sg) -> ci_encoding ci = Raw ->
  let ops b := (a ++ SColumn ci (map CWrite b ++ [CClose]) :: c) ++ [SClose it] in
  orders_ok (ops bufs) ->
  seg_run p w1 sg (ops bufs) = Ret (w2, sg2, rs) -> all_ok rs -> seg_run p w1 sg (ops bufs') = Ret (w2', sg2', rs') -> all_ok rs' ->
  bb_fill (ci_nullable ci) rowss = Ret bufs -> bb_fill (ci_nullable ci) rowss' = Ret bufs' ->
  Forall (rows_allowed (ci_nullable ci)) rowss -> Forall (rows_allowed (ci_nullable ci)) rowss' ->
  Forall (fun r => 128 + N.of_nat (length (concat (somes r))) < 2 ^ 32)%N rowss ->
  (N.of_nat (length (concat rowss)) <= 2 ^ 32 - 2)%N -> (N.of_nat (length (concat rowss')) <= 2 ^ 32 - 2)%N ->
  Forall2 alike rowss rowss' ->
  directory_after d (wd_log w2) (index_path base (si_segment_id info)) = directory_after d (wd_log w2') (index_path base (si_segment_id info))
  /\ directory_after d (wd_log w2) (data_path base (si_segment_id info)) = directory_after d (wd_log w2') (data_path base (si_segment_id info)).
Proof.
  intros d p w base info w1 sg a ci rowss rowss' bufs bufs' c it w2 sg2 rs w2' sg2' rs' M ID N RAW ops O H A H' A' F F' HA HA' HF HL HL' HR.
  apply (same_blocks_files d p w base info w1 sg a ci (map CWrite bufs) (map CWrite bufs') c it w2 sg2 rs w2' sg2' rs'); try assumption; [|apply outline_writes].
  intros bl. rewrite (raw_blocks p ci rowss bufs bl RAW F), (raw_blocks p ci rowss' bufs' bl RAW F').
  apply (C81_trailing_nulls_binary_partial p 128 (ci_nullable ci) rowss rowss'); try assumption. reflexivity.
Qed.
Print Assumptions C81_files_partial.

(** C34 for every raw column of a closed segment: at the ranges of the block
    index the data file has exactly the planned blocks. *)
Theorem C34_rows_in_file_exact : forall d p w base info w1 sg ops ci bufs rowss more it w2 sg2 rs file,
  let cops := map CWrite bufs ++ [CClose] in
  0 < wd_max w -> is_id (si_segment_id info) -> segment_new w base info = (w1, Ok sg) ->
  orders_ok (ops ++ [SColumn ci cops] ++ more ++ [SClose it]) ->
  seg_run p w1 sg (ops ++ [SColumn ci cops] ++ more ++ [SClose it]) = Ret (w2, sg2, rs) -> all_ok rs ->
  directory_after d (wd_log w2) (data_path base (si_segment_id info)) = Some file -> file_ok file ->
  ci_encoding ci = Raw -> bb_fill (ci_nullable ci) rowss = Ret bufs -> Forall (rows_allowed (ci_nullable ci)) rowss ->
  Forall (fun r => 128 + N.of_nat (length (concat (somes r))) < 2 ^ 32)%N rowss -> (N.of_nat (length (concat rowss)) <= 2 ^ 32 - 2)%N ->
  exists items first wi sgi rsi,
    planned_blocks p (ci_nullable ci) 128 rowss = (items, None) /\ can_be_written items
    /\ seg_run p w1 sg (ops ++ [SColumn ci cops]) = Ret (wi, sgi, rsi)
    /\ bi_row_id (sg_block_index sgi) = PropsBinExact.counted 0 items
    /\ Forall2 (fun range it => exists block, reads_as_block file range block /\ layout p (ci_nullable ci) (it_rows it) (it_extra it) block)
         (block_ranges first (bi_offset (sg_block_index sgi))) items.
Proof.
  intros d p w base info w1 sg ops ci bufs rowss more it w2 sg2 rs file cops M ID N O H A DF FO RAW FILL HA HF HL.
  destruct (C65_read_block d p w base info w1 sg ops ci cops more it w2 sg2 rs file M ID N O H A DF FO)
    as (first & blocks & wi & sgi & rsi & CB & R & IDS & G).
  unfold cops in CB. rewrite (raw_blocks p ci rowss bufs blocks RAW FILL) in CB.
  assert (RET : exists r, be_column_rows p 128 (ci_nullable ci) rowss = Ret r) by (eexists; exact CB).
  apply (C35_returns_exact p 128 (ci_nullable ci) rowss ltac:(reflexivity) HA HF HL) in RET. destruct RET as [W ST].
  pose proof (C34_column_exact p 128 (ci_nullable ci) rowss ltac:(reflexivity) HA HF HL) as X.
  destruct (planned_blocks p (ci_nullable ci) 128 rowss) as [items stop] eqn:PB. cbn [fst snd] in W, ST. subst stop.
  destruct X as (X & _). destruct (X W eq_refl) as (bl & E & I & LY). rewrite CB in E. injection E as <-.
  exists items, first, wi, sgi, rsi. split; [reflexivity|]. split; [exact W|]. split; [exact R|]. split; [rewrite IDS, I; reflexivity|].
  clear -G LY. revert G LY. generalize (block_ranges first (bi_offset (sg_block_index sgi))) as l. revert blocks.
  induction items as [|x items IH]; intros blocks l G LY; inversion LY; subst; inversion G; subst; constructor; [|eapply IH; eassumption].
  eexists. split; eassumption.
Qed.
Print Assumptions C34_rows_in_file_exact.

(** * Cases to which this applies *)

Definition dv_rows : list (list (option (list N))) := [[Some [1]; None; None]; [None; Some [2; 2]]; [None]]%N.
Definition dv_rows' : list (list (option (list N))) := [[Some [1]]; [None; Some [2; 2]; None; None]; [None]]%N.
Definition dv_ci : column_info := mkcinfo [97]%N TString Raw NoIndex true.
Definition dv_bufs (rowss : list (list (option (list N)))) : list bin_buf := match bb_fill true rowss with Ret b => b | _ => [] end.
Definition dv_ops (rowss : list (list (option (list N)))) : list seg_op :=
  ([SColumn ex_b [CWrite ex_buf; CClose]] ++ SColumn dv_ci (map CWrite (dv_bufs rowss) ++ [CClose]) :: []) ++ [SClose ex_it].

(** The two columns have the same rows, but for nulls at the ends of buffers. *)
Example C81_witness :
  Forall2 alike dv_rows dv_rows' /\ length (concat dv_rows) = length (concat dv_rows')
  /\ bb_fill true dv_rows = Ret (dv_bufs dv_rows) /\ bb_fill true dv_rows' = Ret (dv_bufs dv_rows') /\ dv_bufs dv_rows <> dv_bufs dv_rows'
  /\ be_column_rows Debug 128 true dv_rows = Ret ([(2, [3; 1; 2; 2; 2; 1; 3; 5])]%N, Ok tt)
  /\ match run_from Debug ex_world ex_base ex_info (dv_ops dv_rows), run_from Debug ex_world ex_base ex_info (dv_ops dv_rows') with
     | Some (w, _, rs), Some (w', _, rs') => all_ok rs /\ all_ok rs'
         /\ match directory_after (fun _ => None) (wd_log w) (data_path ex_base (si_segment_id ex_info)) with
            | Some file => length file = 27 /\ directory_after (fun _ => None) (wd_log w') (data_path ex_base (si_segment_id ex_info)) = Some file
            | None => False end
     | _, _ => False end
  /\ planned_blocks Debug true 128 dv_rows = ([mk_item 3 [Some [1]; None; Some [2; 2]]%N []], None).
Proof.
  split.
  { constructor; [exists [Some [1]%N], 2, 0; split; reflexivity|]. constructor; [exists [None; Some [2; 2]%N], 0, 2; split; reflexivity|].
    constructor; [exists [], 1, 1; split; reflexivity|constructor]. }
  split; [reflexivity|]. split; [vm_compute; reflexivity|]. split; [vm_compute; reflexivity|]. split; [vm_compute; discriminate|].
  split; [vm_compute; reflexivity|]. split; [|vm_compute; reflexivity]. vm_compute. repeat (split; [repeat constructor|]). reflexivity.
Qed.

(** Items in buffers of up to eight bytes, and in a single buffer, which cannot
    be encoded. *)
Example C81_small_witness :
  let rows := [Some [1; 1]; Some []; Some [2]; Some [3; 3; 3; 3; 3]; Some [4; 4]; Some [5; 5; 5; 5; 5; 5; 5]; Some [6]]%N in
  let two := [firstn 1 rows; firstn 4 (skipn 1 rows); skipn 5 rows] in
  concat two = rows
  /\ Forall (fun r => N.of_nat (length (concat (somes r))) <= 8)%N two
  /\ blocks_in_turn 8 rows = [firstn 4 rows; firstn 2 (skipn 4 rows); skipn 6 rows]
  /\ be_column_rows Debug 8 false two = Ret ([(3, [8; 1; 1; 2; 3; 3; 3; 3; 3; 3; 2; 0]); (5, [9; 4; 4; 5; 5; 5; 5; 5; 5; 5; 3; 2]); (6, [1; 6; 1; 1])]%N, Ok tt)
  /\ be_column_rows Debug 8 false [rows] = Panic POverflow.
Proof. vm_compute. repeat (split; [repeat constructor; discriminate|]). reflexivity. Qed.
