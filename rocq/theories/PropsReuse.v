(** Property C93: filling one column buffer again and again, cleared in between
    (indexing_buffer.rs:87-90, 195-200, 326-332; primitive_enc.rs:110-161;
    binary_enc.rs:124-170). *)
From Verif Require Import Base BaseProofs Spec SpecRows SpecBin Varint Buffers Observe BitmapProofs BuffersProofs
  Rle RleProofs RleTrackProofs Offsets Sink PrimEnc BinEnc ObserveEnc RowsProofs BinEncProofs PropsBinPending
  ReadBlock PropsPrimRows PropsBin PropsBinRows ReadBinBlock Io Metadata Segment SpecSegment.
Open Scope nat_scope.

(** One fixed-width buffer is filled with the first rows, handed over, cleared,
    filled with the next rows, and so on: the buffers that are handed over. *)
Fixpoint pb_reuse {T} (b : prim_buf T) (rowss : list (list (option T))) : outcome (list (prim_buf T)) :=
  match rowss with
  | [] => Ret []
  | rows :: rest =>
      let* b1 := pb_append_rows b rows in
      let* more := pb_reuse (pb_clear b1) rest in Ret (b1 :: more)
  end.

(** The same for a binary buffer. *)
Fixpoint bb_reuse (b : bin_buf) (rowss : list (list (option (list N)))) : outcome (list bin_buf) :=
  match rowss with
  | [] => Ret []
  | rows :: rest =>
      let* b1 := bb_append_rows b rows in
      let* more := bb_reuse (bb_clear b1) rest in Ret (b1 :: more)
  end.

(** The rows that the buffers show: a null below row 8192 looks like a value where
    one of the [past] fillings had a value, the values move to the front
    accordingly, and what follows the last value is not shown. *)
Fixpoint shown {T} (nl : bool) (past rowss : list (list (option T))) : list (list (option T)) :=
  match rowss with
  | [] => []
  | rows :: rest => seen nl past rows :: shown nl (rows :: past) rest
  end.

(** * Two bitmaps that agree up to the last value *)

Definition extends (b1 b2 : bitmap) (bits rest : list bool) : Prop := reads_as b1 bits /\ reads_as b2 (bits ++ rest).

Lemma window_more bits rest start n w : valid_window bits start n w -> valid_window (bits ++ rest) start n w.
Proof. intros (before & after & -> & L & C & E). exists before, (after ++ rest). rewrite <- !app_assoc. auto. Qed.

Lemma count_skip bits start : count_true (firstn start bits) + count_true (skipn start bits) = count_true bits.
Proof. rewrite <- count_true_app, firstn_skipn. reflexivity. Qed.

(** A position in the bitmap of a buffer: [done] values are before it. *)
Definition at_value (bits : list bool) (vp done : nat) : Prop := vp <= length bits /\ count_true (firstn vp bits) = done.

Lemma window_at bits vp done n w : valid_window bits vp n w -> at_value bits vp done -> at_value bits (vp + length w) (done + n).
Proof.
  intros (before & after & -> & L & C & E) [A1 A2]. subst vp. rewrite firstn_app, Nat.sub_diag, firstn_O, app_nil_r, firstn_all in A2.
  split; [rewrite !app_length; lia|]. rewrite app_assoc, firstn_app, app_length, Nat.sub_diag, firstn_O, app_nil_r.
  rewrite <- app_length, firstn_all, count_true_app. lia.
Qed.

Lemma some_window bits vp done n : at_value bits vp done -> done + n <= count_true bits -> exists w, valid_window bits vp n w.
Proof. intros [A1 A2] C. apply window_exists; [exact A1|]. pose proof (count_skip bits vp). lia. Qed.

Lemma append_from_extends d b1 b2 bits rest vp done n : extends b1 b2 bits rest -> at_value bits vp done -> done + n <= count_true bits ->
  bm_append_from d b1 vp n = bm_append_from d b2 vp n
  /\ forall d' vp', bm_append_from d b1 vp n = Ret (d', vp') -> at_value bits vp' (done + n).
Proof.
  intros [R1 R2] A C. destruct (some_window _ _ _ _ A C) as [w W].
  rewrite (append_from_appends _ _ _ _ _ _ R1 W), (append_from_appends _ _ _ _ _ _ R2 (window_more _ rest _ _ _ W)).
  split; [reflexivity|]. intros d' vp' E. destruct (bm_appends d w); [|discriminate E..]. cbn [bind] in E. injection E as _ <-.
  exact (window_at _ _ _ _ _ W A).
Qed.

Lemma put_from_extends e b1 b2 bits rest vp done n : extends b1 b2 bits rest -> at_value bits vp done -> done + n <= count_true bits ->
  rle_put_from e b1 vp n = rle_put_from e b2 vp n
  /\ forall e' vp', rle_put_from e b1 vp n = Ret (e', vp') -> at_value bits vp' (done + n).
Proof.
  intros [R1 R2] A C. destruct (some_window _ _ _ _ A C) as [w W].
  rewrite (put_from_puts _ _ _ _ _ _ R1 W), (put_from_puts _ _ _ _ _ _ R2 (window_more _ rest _ _ _ W)).
  split; [reflexivity|]. intros d' vp' E. destruct (rle_puts e w); [|discriminate E..]. cbn [bind] in E. injection E as _ <-.
  exact (window_at _ _ _ _ _ W A).
Qed.

(** The validity of two buffers with [n] values. *)
Definition same_validity (v1 v2 : option bitmap) (bits rest : list bool) (n : nat) : Prop :=
  match v1, v2 with
  | None, None => True
  | Some b1, Some b2 => extends b1 b2 bits rest /\ count_true bits = n
  | _, _ => False
  end.

Definition validity_at (v : option bitmap) (bits : list bool) (vp done : nat) : Prop :=
  match v with Some _ => at_value bits vp done | None => True end.

Lemma validity_start v bits : validity_at v bits 0 0.
Proof. destruct v; [|exact I]. split; [lia|reflexivity]. Qed.

Lemma validity_append_same d v1 v2 bits rest total vp done n : same_validity v1 v2 bits rest total -> validity_at v1 bits vp done -> done + n <= total ->
  validity_append_from d v1 vp n = validity_append_from d v2 vp n
  /\ forall d' vp', validity_append_from d v1 vp n = Ret (d', vp') -> validity_at v1 bits vp' (done + n).
Proof.
  destruct v1 as [b1|], v2 as [b2|]; cbn [same_validity validity_at]; [|intros []..|intros _ _ _; split; [reflexivity|trivial]].
  intros [X C] A L. cbn [validity_append_from]. destruct d as [d|]; [|split; [reflexivity|discriminate]].
  destruct (append_from_extends d _ _ _ _ _ _ n X A ltac:(lia)) as [E F]. rewrite <- E. split; [reflexivity|].
  intros d' vp' G. destruct (bm_append_from d b1 vp n) as [[r1 r2]|k|] eqn:Q; [|discriminate G..]. cbn [bind fst snd] in G. injection G as _ <-. eapply F; reflexivity.
Qed.

(** * Fixed-width columns *)

Definition same_prim (b1 b2 : prim_buf N) : Prop :=
  pb_values b1 = pb_values b2 /\ exists bits rest, same_validity (pb_validity b1) (pb_validity b2) bits rest (length (pb_values b1)).

Section Fixed.
Context {S : Type} (wr : sink_fn S) (p : profile) (sz : nat).

Lemma pb_from_same (d b1 b2 : prim_buf N) bits rest start end_ vp : pb_values b1 = pb_values b2 ->
  same_validity (pb_validity b1) (pb_validity b2) bits rest (length (pb_values b1)) -> validity_at (pb_validity b1) bits vp start ->
  pb_append_from d b1 start end_ vp = pb_append_from d b2 start end_ vp
  /\ forall d' vp', pb_append_from d b1 start end_ vp = Ret (d', vp') -> start <= end_ /\ validity_at (pb_validity b1) bits vp' end_.
Proof.
  intros V X A. unfold pb_append_from. rewrite <- V. destruct (slice (pb_values b1) start end_) as [chunk|k|] eqn:SL; cbn [bind]; [|split; [reflexivity|discriminate]..].
  apply slice_ret_inv in SL. destruct SL as (L1 & L2 & _). destruct (_ <? u32_max)%N; [|split; [reflexivity|discriminate]].
  destruct (validity_append_same (pb_validity d) _ _ _ _ _ _ _ (end_ - start) X A ltac:(lia)) as [E F]. rewrite <- E.
  split; [reflexivity|]. intros d' vp' G. split; [exact L1|]. destruct (validity_append_from _ _ _ _) as [[r1 r2]|k|]; [|discriminate G..]. cbn [bind fst snd] in G. injection G as _ <-.
  replace end_ with (start + (end_ - start)) by lia. eapply F; reflexivity.
Qed.

Lemma pe_write_same e (b1 b2 : prim_buf N) bits rest start end_ vp s : pb_values b1 = pb_values b2 ->
  same_validity (pb_validity b1) (pb_validity b2) bits rest (length (pb_values b1)) -> validity_at (pb_validity b1) bits vp start ->
  pe_write wr p sz e b1 start end_ vp s = pe_write wr p sz e b2 start end_ vp s
  /\ forall e' s' vp', pe_write wr p sz e b1 start end_ vp s = Ret (e', s', Ok vp') -> validity_at (pb_validity b1) bits vp' end_.
Proof.
  intros V X A. unfold pe_write, encode_primitive_buffer. rewrite <- V.
  destruct (put_varint [] _) as [en|k|]; cbn [bind]; [|split; [reflexivity|discriminate]..].
  destruct (slice (pb_values b1) start end_) as [chunk|k|] eqn:SL; cbn [bind]; [|split; [reflexivity|discriminate]..].
  apply slice_ret_inv in SL. destruct SL as (L1 & L2 & _).
  destruct (pb_validity b1) as [m1|], (pb_validity b2) as [m2|]; cbn [same_validity validity_at] in *; [|destruct X..|split; [reflexivity|trivial]].
  destruct X as [X C]. destruct (put_from_extends (rle_clear (pe_bitmap e)) _ _ _ _ _ _ (end_ - start) X A ltac:(lia)) as [E F]. rewrite <- E.
  split; [reflexivity|]. intros e' s' vp' G. destruct (rle_put_from _ _ _ _) as [[r1 r2]|k|]; [|discriminate G..]. cbn [bind fst snd] in G.
  destruct (rle_flush r1); [|discriminate G..]. cbn [bind] in G. destruct (pe_add_rows _ _); [|discriminate G..]. cbn [bind] in G.
  destruct (sub32 _ _ _); [|discriminate G..]. cbn [bind] in G. destruct (wr _ _ _) as [s1 [[]|]]; cbn [fst snd] in G; [|discriminate G].
  injection G as _ _ <-. replace end_ with (start + (end_ - start)) by lia. eapply F; reflexivity.
Qed.

Lemma pe_loop_same (b1 b2 : prim_buf N) bits rest : pb_values b1 = pb_values b2 ->
  same_validity (pb_validity b1) (pb_validity b2) bits rest (length (pb_values b1)) ->
  forall fuel e pos vp s, validity_at (pb_validity b1) bits vp pos ->
  pe_loop wr p sz fuel e b1 pos vp s = pe_loop wr p sz fuel e b2 pos vp s.
Proof.
  intros V X. assert (L : pb_len b1 = pb_len b2) by (unfold pb_len; rewrite V; reflexivity).
  induction fuel as [|fuel IH]; intros e pos vp s A; cbn [pe_loop]; [reflexivity|]. rewrite <- L. destruct (pos <? pb_len b1); [|reflexivity].
  destruct (pe_chunk p sz (pb_len b1) pos (pe_min e)) as [q|k|]; cbn [bind]; [|reflexivity..]. destruct (_ <? pe_min e)%N.
  - rewrite (proj1 (pb_from_same (pe_remaining e) _ _ _ _ pos q vp V X A)). reflexivity.
  - destruct (pe_write_same e _ _ _ _ pos q vp s V X A) as [E F]. rewrite <- E. destruct (pe_write _ _ _ _ _ _ _ _ _) as [[[e' s'] [vp'|]]|k|]; cbn [bind]; [|reflexivity..].
    apply IH. eapply F; reflexivity.
Qed.

Lemma pe_encode_same b1 b2 fuel e s : same_prim b1 b2 -> pe_encode wr p sz fuel e b1 s = pe_encode wr p sz fuel e b2 s.
Proof.
  intros (V & bits & rest & X). assert (L : pb_len b1 = pb_len b2) by (unfold pb_len; rewrite V; reflexivity).
  unfold pe_encode. rewrite <- L. destruct (0 <? pb_len (pe_remaining e)).
  - destruct (sub64 _ _ _) as [want|k|]; cbn [bind]; [|reflexivity..]. destruct (pe_chunk _ _ _ _ _) as [q|k|]; cbn [bind]; [|reflexivity..].
    destruct (pb_from_same (pe_remaining e) _ _ _ _ 0 q 0 V X (validity_start _ _)) as [E F]. rewrite <- E.
    destruct (pb_append_from _ _ _ _ _) as [[r vp]|k|]; cbn [bind fst snd]; [|reflexivity..]. destruct (_ <? pe_min _)%N; [reflexivity|].
    destruct (pe_write_remaining _ _ _ _ _) as [[[e' s'] [x|]]|k|]; cbn [bind]; [|reflexivity..].
    apply (pe_loop_same _ _ _ _ V X). eapply F; reflexivity.
  - apply (pe_loop_same _ _ _ _ V X). apply validity_start.
Qed.

Lemma pe_encodes_same bufs bufs' : Forall2 same_prim bufs bufs' -> forall e s, pe_encodes wr p sz e bufs s = pe_encodes wr p sz e bufs' s.
Proof.
  induction 1 as [|b1 b2 bufs bufs' H _ IH]; intros e s; cbn [pe_encodes]; [reflexivity|].
  rewrite (pe_encode_same b1 b2 _ e s H). replace (pb_len b2) with (pb_len b1) by (unfold pb_len; rewrite (proj1 H); reflexivity).
  apply bind_ext. intros [[e' s'] [[]|]]; [apply IH|reflexivity].
Qed.

Lemma pe_finish_same bufs bufs' : Forall2 same_prim bufs bufs' -> forall e s, pe_finish wr p sz e bufs s = pe_finish wr p sz e bufs' s.
Proof. intros H e s. unfold pe_finish. rewrite (pe_encodes_same _ _ H). reflexivity. Qed.
End Fixed.

(** * Binary columns *)

(** The same results; a panic may be another one. *)
Definition same_ret {A} (m1 m2 : outcome A) : Prop := forall r, m1 = Ret r <-> m2 = Ret r.

Lemma same_ret_refl {A} (m : outcome A) : same_ret m m.
Proof. intros r. tauto. Qed.

Lemma same_ret_bind {A B} (m1 m2 : outcome A) (k1 k2 : A -> outcome B) : same_ret m1 m2 ->
  (forall a, m1 = Ret a -> same_ret (k1 a) (k2 a)) -> same_ret (bind m1 k1) (bind m2 k2).
Proof.
  intros M K r. split; intros H; apply bind_inv in H; destruct H as (a & E & F).
  - pose proof (K a E r) as Q. rewrite (proj1 (M a) E). cbn [bind]. apply Q. exact F.
  - apply M in E. rewrite E. cbn [bind]. apply (K a E). exact F.
Qed.

Lemma append_from_ret src n : forall fuel d items pos r, bm_append_from_loop fuel d src items pos n = Ret r -> n - items <= bm_len src - pos.
Proof.
  induction fuel as [|fuel IH]; intros d items pos r H; cbn [bm_append_from_loop] in H; [discriminate H|].
  destruct (Nat.ltb_spec items n) as [L|L]; [|lia]. apply bind_inv in H. destruct H as (bit & B & H). apply bind_inv in H. destruct H as (d1 & _ & H).
  apply IH in H. unfold bm_is_set in B. destruct (Nat.ltb_spec pos (bm_len src)); [|discriminate B]. destruct bit; cbn [b2n] in H; lia.
Qed.

Lemma put_from_ret src n : forall fuel e items pos r, rle_put_from_loop fuel e src items pos n = Ret r -> n - items <= bm_len src - pos.
Proof.
  induction fuel as [|fuel IH]; intros d items pos r H; cbn [rle_put_from_loop] in H; [discriminate H|].
  destruct (Nat.ltb_spec items n) as [L|L]; [|lia]. apply bind_inv in H. destruct H as (bit & B & H). apply bind_inv in H. destruct H as (d1 & _ & H).
  apply IH in H. unfold bm_is_set in B. destruct (Nat.ltb_spec pos (bm_len src)); [|discriminate B]. destruct bit; cbn [b2n] in H; lia.
Qed.

Lemma same_ret_never {A} (m1 m2 : outcome A) : (forall r, m1 <> Ret r) -> (forall r, m2 <> Ret r) -> same_ret m1 m2.
Proof. intros H1 H2 r. split; intros E; [destruct (H1 r E)|destruct (H2 r E)]. Qed.

(** A number of values as [chunk] computes it: at most the values there are, or
    more than there are rows. *)
Definition some_count (bits rest : list bool) (done end_ n : nat) : Prop :=
  (done <= end_ /\ n = end_ - done) \/ length (bits ++ rest) < n.

Lemma validity_append_ret d v1 v2 bits rest total vp done end_ n : same_validity v1 v2 bits rest total -> validity_at v1 bits vp done ->
  end_ <= total -> some_count bits rest done end_ n ->
  same_ret (validity_append_from d v1 vp n) (validity_append_from d v2 vp n)
  /\ forall d' vp', validity_append_from d v1 vp n = Ret (d', vp') -> validity_at v1 bits vp' end_.
Proof.
  intros X A LE [[L ->]|L].
  - destruct (validity_append_same d _ _ _ _ _ _ _ (end_ - done) X A ltac:(lia)) as [E F]. rewrite <- E. split; [apply same_ret_refl|].
    replace (done + (end_ - done)) with end_ in F by lia. exact F.
  - destruct v1 as [b1|], v2 as [b2|]; cbn [same_validity validity_at validity_append_from] in *; [|destruct X..|split; [apply same_ret_refl|trivial]].
    destruct X as [[[R1 _] [R2 _]] _]. rewrite app_length in *. destruct d as [d|]; [|split; [apply same_ret_refl|discriminate]].
    assert (N1 : forall r, bm_append_from d b1 vp n <> Ret r) by (intros r H; apply append_from_ret in H; lia).
    assert (N2 : forall r, bm_append_from d b2 vp n <> Ret r) by (intros r H; apply append_from_ret in H; lia).
    assert (N3 : forall r b, (forall r, bm_append_from d b vp n <> Ret r) -> (let* q := bm_append_from d b vp n in Ret (Some (fst q), snd q)) <> Ret r).
    { intros r b NB H. apply bind_inv in H. destruct H as (q & H & _). exact (NB q H). }
    split; [apply same_ret_never; intros r; apply N3; assumption|]. intros d' vp' H. destruct (N3 _ _ N1 H).
Qed.

Definition same_bin (b1 b2 : bin_buf) (bits rest : list bool) : Prop :=
  bb_data b1 = bb_data b2 /\ bb_offsets b1 = bb_offsets b2
  /\ same_validity (bb_validity b1) (bb_validity b2) bits rest (length (bb_offsets b1) - 1)
  /\ (N.of_nat (length (bits ++ rest)) < 2 ^ 63)%N /\ (N.of_nat (length (bb_offsets b1)) < 2 ^ 63)%N.

Lemma count_of p bits rest done end_ cl : (N.of_nat (length (bits ++ rest)) < 2 ^ 63)%N -> (N.of_nat done < 2 ^ 63)%N ->
  sub64 p (N.of_nat end_) (N.of_nat done) = Ret cl -> some_count bits rest done end_ (N.to_nat cl).
Proof.
  change (2 ^ 63)%N with 9223372036854775808%N. intros L D H. unfold sub64, usub in H. destruct (N.leb_spec (N.of_nat done) (N.of_nat end_)) as [Q|Q].
  - injection H as <-. left. lia.
  - destruct p; [discriminate H|]. injection H as <-. right. revert L. generalize (length (bits ++ rest)). intros l L.
    unfold u64_lim. lia.
Qed.

Lemma push_offsets_same p b1 b2 : bb_offsets b1 = bb_offsets b2 -> forall count i last offs,
  bb_push_offsets p b1 i count last offs = bb_push_offsets p b2 i count last offs.
Proof.
  intros O. induction count as [|count IH]; intros i last offs; cbn [bb_push_offsets]; [reflexivity|]. unfold bb_item_len. rewrite O.
  apply bind_ext. intros len. apply bind_ext. intros l. apply IH.
Qed.

Lemma item_lens_same p b1 b2 : bb_offsets b1 = bb_offsets b2 -> forall count i, item_lens p b1 i count = item_lens p b2 i count.
Proof.
  intros O. induction count as [|count IH]; intros i; cbn [item_lens]; [reflexivity|]. unfold bb_item_len. rewrite O, IH. reflexivity.
Qed.

Lemma bb_from_same p d b1 b2 bits rest start end_ vp : same_bin b1 b2 bits rest -> validity_at (bb_validity b1) bits vp start ->
  end_ <= length (bb_offsets b1) - 1 ->
  same_ret (bb_append_from p d b1 start end_ vp) (bb_append_from p d b2 start end_ vp)
  /\ forall d' vp', bb_append_from p d b1 start end_ vp = Ret (d', vp') -> validity_at (bb_validity b1) bits vp' end_.
Proof.
  intros (D & O & X & L & LO) A LE. unfold bb_append_from. rewrite <- O, <- D. rewrite (push_offsets_same p b1 b2 O).
  destruct (idx (bb_offsets b1) start) as [so|k|] eqn:IX; cbn [bind]; [|split; [apply same_ret_refl|discriminate]..].
  destruct (idx (bb_offsets b1) end_) as [eo|k|]; cbn [bind]; [|split; [apply same_ret_refl|discriminate]..].
  destruct (sub64 p (N.of_nat end_) (N.of_nat start)) as [cl|k|] eqn:SB; cbn [bind]; [|split; [apply same_ret_refl|discriminate]..].
  destruct (bb_push_offsets _ _ _ _ _ _) as [os|k|]; cbn [bind]; [|split; [apply same_ret_refl|discriminate]..].
  destruct (slice _ _ _) as [ch|k|]; cbn [bind]; [|split; [apply same_ret_refl|discriminate]..].
  destruct (_ <? u32_max)%N; [|split; [apply same_ret_refl|discriminate]].
  assert (SL : (N.of_nat start < 2 ^ 63)%N).
  { unfold idx in IX. destruct (nth_error (bb_offsets b1) start) eqn:NE; [|discriminate IX]. assert (start < length (bb_offsets b1)) by (apply nth_error_Some; congruence). clear -H LO. lia. }
  destruct (validity_append_ret (bb_validity d) _ _ _ _ _ vp start end_ _ X A LE (count_of p bits rest start end_ cl L SL SB)) as [E F].
  split; [apply same_ret_bind; [exact E|intros a _; apply same_ret_refl]|].
  intros d' vp' G. apply bind_inv in G. destruct G as ([v q] & G & H). cbn [fst snd] in H. injection H as _ <-. exact (F _ _ G).
Qed.

Lemma find_offset_range p offsets so m : forall i j o, find_offset p offsets so m i = Ret (Some (j, o)) -> j < i + length offsets.
Proof.
  induction offsets as [|x offsets IH]; intros i j o H; cbn [find_offset] in H; [discriminate H|]. apply bind_inv in H. destruct H as (d & _ & H).
  cbn [length]. destruct (m <=? d)%N; [injection H as <- _; lia|]. apply IH in H. lia.
Qed.

Lemma be_chunk_range p b start m c : be_chunk p b start m = Ret c ->
  bc_start c = start /\ start < length (bb_offsets b) /\ bc_end c <= length (bb_offsets b) - 1 /\ sub64 p (N.of_nat (bc_end c)) (N.of_nat start) = Ret (bc_len c).
Proof.
  unfold be_chunk. intros H. apply bind_inv in H. destruct H as (so & IX & H). apply bind_inv in H. destruct H as (found & FO & H).
  apply bind_inv in H. destruct H as ([e eo] & E & H). apply bind_inv in H. destruct H as (size & _ & H). apply bind_inv in H. destruct H as (len & LN & H).
  injection H as <-. cbn [bc_start bc_end bc_len]. split; [reflexivity|].
  assert (SL : start < length (bb_offsets b)).
  { unfold idx in IX. destruct (nth_error (bb_offsets b) start) eqn:NE; [|discriminate IX]. apply nth_error_Some. congruence. }
  split; [exact SL|]. split; [|exact LN]. destruct found as [[j o]|].
  - injection E as <- _. apply find_offset_range in FO. rewrite skipn_length in FO. lia.
  - apply bind_inv in E. destruct E as (o & _ & E). injection E as <- _. lia.
Qed.

Section Binary.
Context {S : Type} (wr : sink_fn S) (p : profile).

Lemma be_write_same e b1 b2 bits rest c vp s : same_bin b1 b2 bits rest -> validity_at (bb_validity b1) bits vp (bc_start c) ->
  bc_start c < length (bb_offsets b1) -> bc_end c <= length (bb_offsets b1) - 1 -> sub64 p (N.of_nat (bc_end c)) (N.of_nat (bc_start c)) = Ret (bc_len c) ->
  same_ret (be_write wr p e b1 c vp s) (be_write wr p e b2 c vp s)
  /\ forall e' s' vp', be_write wr p e b1 c vp s = Ret (e', s', Ok vp') -> validity_at (bb_validity b1) bits vp' (bc_end c).
Proof.
  intros (D & O & X & L & LO) A SL LE SB. unfold be_write, encode_binary_buffer. rewrite <- D. rewrite (item_lens_same p b1 b2 O).
  destruct (put_varint [] _) as [en|k|]; cbn [bind]; [|split; [apply same_ret_refl|discriminate]..].
  destruct (slice _ _ _) as [ch|k|]; cbn [bind]; [|split; [apply same_ret_refl|discriminate]..].
  destruct (item_lens _ _ _ _) as [il|k|]; cbn [bind]; [|split; [apply same_ret_refl|discriminate]..].
  destruct (off_encode _ _ _) as [oe|k|]; cbn [bind]; [|split; [apply same_ret_refl|discriminate]..].
  assert (SC : some_count bits rest (bc_start c) (bc_end c) (N.to_nat (bc_len c))).
  { apply (count_of p); [exact L| |exact SB]. clear -SL LO. lia. }
  destruct (bb_validity b1) as [m1|], (bb_validity b2) as [m2|]; cbn [same_validity validity_at] in *; [|destruct X..|split; [apply same_ret_refl|trivial]].
  destruct X as [X C].
  assert (Q : same_ret (rle_put_from (rle_clear (be_bitmap e)) m1 vp (N.to_nat (bc_len c))) (rle_put_from (rle_clear (be_bitmap e)) m2 vp (N.to_nat (bc_len c)))
    /\ forall e' vp', rle_put_from (rle_clear (be_bitmap e)) m1 vp (N.to_nat (bc_len c)) = Ret (e', vp') -> at_value bits vp' (bc_end c)).
  { destruct SC as [[L1 ->]|L1].
    - destruct (put_from_extends (rle_clear (be_bitmap e)) _ _ _ _ _ _ (bc_end c - bc_start c) X A ltac:(lia)) as [E F]. rewrite <- E.
      split; [apply same_ret_refl|]. replace (bc_start c + (bc_end c - bc_start c)) with (bc_end c) in F by lia. exact F.
    - destruct X as [[R1 _] [R2 _]]. rewrite app_length in *.
      assert (N1 : forall r, rle_put_from (rle_clear (be_bitmap e)) m1 vp (N.to_nat (bc_len c)) <> Ret r) by (intros r H; apply put_from_ret in H; lia).
      assert (N2 : forall r, rle_put_from (rle_clear (be_bitmap e)) m2 vp (N.to_nat (bc_len c)) <> Ret r) by (intros r H; apply put_from_ret in H; lia).
      split; [apply same_ret_never; assumption|]. intros e' vp' H. destruct (N1 _ H). }
  destruct Q as [Q1 Q2]. split.
  - apply same_ret_bind; [|intros a _; apply same_ret_refl]. apply same_ret_bind; [exact Q1|intros a _; apply same_ret_refl].
  - intros e' s' vp' G. apply bind_inv in G. destruct G as ([[en' rl] [nr lv]] & G & H). apply bind_inv in G. destruct G as ([r1 r2] & G & K).
    apply bind_inv in K. destruct K as (rf & _ & K). cbn [fst snd] in K. injection K as _ _ _ <-.
    apply bind_inv in H. destruct H as (rows & _ & H). apply bind_inv in H. destruct H as (rid & _ & H).
    destruct (wr _ _ _) as [s1 [[]|]]; cbn [fst snd] in H; [|discriminate H]. injection H as _ _ <-. exact (Q2 _ _ G).
Qed.

Lemma be_loop_same b1 b2 bits rest : same_bin b1 b2 bits rest ->
  forall fuel e pos vp s, validity_at (bb_validity b1) bits vp pos ->
  same_ret (be_loop wr p fuel e b1 pos vp s) (be_loop wr p fuel e b2 pos vp s).
Proof.
  intros X. pose proof X as (_ & O & _). induction fuel as [|fuel IH]; intros e pos vp s A; cbn [be_loop]; [apply same_ret_refl|].
  rewrite <- O. destruct (pos <? length (bb_offsets b1)); [|apply same_ret_refl].
  assert (CE : be_chunk p b2 pos (be_min e) = be_chunk p b1 pos (be_min e)) by (unfold be_chunk; rewrite O; reflexivity).
  rewrite CE. destruct (be_chunk p b1 pos (be_min e)) as [c|k|] eqn:CH; cbn [bind]; [|apply same_ret_refl..].
  apply be_chunk_range in CH. destruct CH as (C1 & C2 & C3 & C4). destruct (_ <? be_min e)%N.
  - apply same_ret_bind; [|intros a _; apply same_ret_refl]. rewrite C1. apply (bb_from_same p _ _ _ _ _ _ _ _ X A C3).
  - rewrite <- C1 in A, C2, C4. destruct (be_write_same e _ _ _ _ c vp s X A C2 C3 C4) as [E F].
    apply same_ret_bind; [exact E|]. intros [[e' s'] [vp'|]] G; [|apply same_ret_refl]. apply IH. exact (F _ _ _ G).
Qed.

Lemma be_encode_same b1 b2 bits rest fuel e s : same_bin b1 b2 bits rest ->
  same_ret (be_encode wr p fuel e b1 s) (be_encode wr p fuel e b2 s).
Proof.
  intros X. pose proof X as (_ & O & _). unfold be_encode. destruct (0 <? bb_len (be_remaining e)).
  - destruct (sub64 _ _ _) as [want|k|]; cbn [bind]; [|apply same_ret_refl..].
    assert (CE : be_chunk p b2 0 want = be_chunk p b1 0 want) by (unfold be_chunk; rewrite O; reflexivity).
    rewrite CE. destruct (be_chunk p b1 0 want) as [c|k|] eqn:CH; cbn [bind]; [|apply same_ret_refl..].
    apply be_chunk_range in CH. destruct CH as (C1 & C2 & C3 & C4). rewrite C1.
    destruct (bb_from_same p (be_remaining e) _ _ _ _ 0 (bc_end c) 0 X (validity_start _ _) C3) as [E F].
    apply same_ret_bind; [exact E|]. intros [d vp] G. cbn [fst snd]. destruct (_ <? be_min _)%N; [apply same_ret_refl|].
    apply same_ret_bind; [apply same_ret_refl|]. intros [[e' s'] [x|]] _; [|apply same_ret_refl].
    apply (be_loop_same _ _ _ _ X). exact (F _ _ G).
  - apply (be_loop_same _ _ _ _ X). apply validity_start.
Qed.

Definition same_bins (b1 b2 : bin_buf) : Prop := exists bits rest, same_bin b1 b2 bits rest.

Lemma be_encodes_same bufs bufs' : Forall2 same_bins bufs bufs' -> forall e s, same_ret (be_encodes wr p e bufs s) (be_encodes wr p e bufs' s).
Proof.
  induction 1 as [|b1 b2 bufs bufs' (bits & rest & H) _ IH]; intros e s; cbn [be_encodes]; [apply same_ret_refl|].
  rewrite <- (proj1 (proj2 H)). apply same_ret_bind; [apply (be_encode_same _ _ _ _ _ _ _ H)|]. intros [[e' s'] [[]|]] _; [apply IH|apply same_ret_refl].
Qed.

Lemma be_finish_same bufs bufs' : Forall2 same_bins bufs bufs' -> forall e s, same_ret (be_finish wr p e bufs s) (be_finish wr p e bufs' s).
Proof. intros H e s. unfold be_finish. apply same_ret_bind; [apply be_encodes_same; exact H|intros a _; apply same_ret_refl]. Qed.
End Binary.

(** * The buffers *)

Lemma shows_rows {T} nl past (rows : list (option T)) :
  somes (seen nl past rows) = somes rows
  /\ (nl = true -> exists rest, display past rows = validity_of (seen nl past rows) ++ rest)
  /\ (nl = false -> seen nl past rows = rows)
  /\ length (seen nl past rows) <= length rows.
Proof.
  rewrite display_seen. destruct nl; [|repeat split; [discriminate|lia]].
  assert (HC : length (somes rows) <= count_true (display past rows)) by (rewrite <- count_validity; apply stale_or_count).
  destruct (place_spec _ _ HC) as (P1 & P2 & a & P3). split; [exact P1|]. split; [intros _; exists a; exact P3|]. split; [discriminate|].
  apply (f_equal (@length bool)) in P3. unfold display in P3 at 1. rewrite app_length, stale_or_length, !validity_length in P3. lia.
Qed.

Lemma used_again {T} bm past (rows : list (option T)) : bm_rep bm [] (dirty past) ->
  exists bm', bm_appends bm (validity_of rows) = Ret bm' /\ reads_as bm' (display past rows) /\ bm_rep (bm_clear bm') [] (dirty (rows :: past)).
Proof.
  intros R. destruct (appends_rep (validity_of rows) bm [] _ R) as (bm' & E & H). cbn [app length] in H. exists bm'. split; [exact E|].
  split; [exact (rep_reads _ _ _ H)|]. eapply rep_ext; [|apply clear_rep; exact H]. intros i. apply (dirty_cons past rows i).
Qed.

Lemma new_bits (xs : list bool) : exists bm, bm_appends bm_new xs = Ret bm /\ reads_as bm xs.
Proof.
  destruct (appends_rep xs bm_new [] _ rep_new) as (bm & E & H). exists bm. split; [exact E|]. rewrite stale_or_none in H. exact (rep_reads _ _ _ H).
Qed.

Lemma reuse_prim rowss : forall past bm, bm_rep bm [] (dirty past) ->
  exists bufs bufs', pb_reuse (mk_prim [] (Some bm)) rowss = Ret bufs /\ pb_fill true (shown true past rowss) = Ret bufs' /\ Forall2 same_prim bufs' bufs.
Proof.
  induction rowss as [|rows rowss IH]; intros past bm R; cbn [pb_reuse shown pb_fill]; [exists [], []; repeat split; constructor|].
  destruct (used_again bm past rows R) as (bm' & E & RD & RC). destruct (IH (rows :: past) _ RC) as (bufs & bufs' & I1 & I2 & I3).
  destruct (new_bits (validity_of (seen true past rows))) as (bn & EN & RN). destruct (shows_rows true past rows) as (SO & SV & _ & _). destruct (SV eq_refl) as [rest SR].
  rewrite pb_rows_some, E. cbn [bind app]. unfold pb_clear. cbn [pb_validity option_map]. rewrite I1. cbn [bind].
  unfold pb_new. cbn [new_validity]. rewrite pb_rows_some, EN. cbn [bind app]. rewrite I2. cbn [bind]. rewrite SO.
  eexists. eexists. split; [reflexivity|]. split; [reflexivity|]. constructor; [|exact I3].
  split; [reflexivity|]. exists (validity_of (seen true past rows)), rest. cbn [pb_validity pb_values same_validity].
  split; [split; [exact RN|rewrite <- SR; exact RD]|]. rewrite count_validity, SO. reflexivity.
Qed.

Lemma reuse_prim_plain (rowss : list (list (option N))) : pb_reuse (pb_new false) rowss = pb_fill false rowss.
Proof.
  induction rowss as [|rows rowss IH]; cbn [pb_reuse pb_fill]; [reflexivity|].
  assert (D : Forall (fun r => is_some r = true) rows \/ ~ Forall (fun r => is_some r = true) rows).
  { destruct (forallb is_some rows) eqn:F; [left; apply Forall_forall; apply forallb_forall; exact F|]. right. intros Q. rewrite Forall_forall in Q. apply forallb_forall in Q. congruence. }
  destruct D as [D|D].
  - change (@pb_new N false) with (@mk_prim N [] None). rewrite (pb_rows_none rows [] D). cbn [bind]. unfold pb_clear. cbn [pb_validity option_map].
    change (@mk_prim N [] None) with (@pb_new N false). rewrite IH. reflexivity.
  - change (@pb_new N false) with (@mk_prim N [] None). rewrite (pb_rows_none_null rows [] D). reflexivity.
Qed.

Lemma shown_plain {T} (rowss : list (list (option T))) : forall past, shown false past rowss = rowss.
Proof. induction rowss as [|rows rowss IH]; intros past; cbn [shown seen]; [reflexivity|]. rewrite IH. reflexivity. Qed.

Definition small_data (rows : list (option (list N))) : Prop := (N.of_nat (length (concat (somes rows))) <= 4294967295)%N.
Definition few_rows {T} (rows : list (option T)) : Prop := (N.of_nat (length rows) < 2 ^ 63 - 1)%N.

Lemma shown_bits {T} past (rows : list (option T)) bn bm rest : few_rows rows -> reads_as bn (validity_of (seen true past rows)) ->
  reads_as bm (display past rows) -> display past rows = validity_of (seen true past rows) ++ rest ->
  extends bn bm (validity_of (seen true past rows)) rest /\ count_true (validity_of (seen true past rows)) = length (somes rows)
  /\ (N.of_nat (length (validity_of (seen true past rows) ++ rest)) < 2 ^ 63)%N.
Proof.
  intros F RN RD SR. split; [split; [exact RN|rewrite <- SR; exact RD]|]. split; [rewrite count_validity, (proj1 (shows_rows true past rows)); reflexivity|].
  rewrite <- SR. unfold display. rewrite stale_or_length, validity_length. unfold few_rows in F. lia.
Qed.

Lemma somes_length {T} (rows : list (option T)) : length (somes rows) <= length rows.
Proof. rewrite <- count_validity, <- (validity_length rows). apply count_true_le. Qed.

Lemma reuse_bin rowss : Forall small_data rowss -> Forall few_rows rowss -> forall past bm, bm_rep bm [] (dirty past) ->
  exists bufs bufs', bb_reuse (mk_bin [] [0%N] (Some bm)) rowss = Ret bufs /\ bb_fill true (shown true past rowss) = Ret bufs' /\ Forall2 same_bins bufs' bufs.
Proof.
  induction rowss as [|rows rowss IH]; intros SD FR past bm R; cbn [bb_reuse shown bb_fill]; [exists [], []; repeat split; constructor|].
  pose proof (Forall_inv SD) as SD1. pose proof (Forall_inv FR) as FR1. unfold small_data in SD1.
  destruct (used_again bm past rows R) as (bm' & E & RD & RC). destruct (IH (Forall_inv_tail SD) (Forall_inv_tail FR) (rows :: past) _ RC) as (bufs & bufs' & I1 & I2 & I3).
  destruct (new_bits (validity_of (seen true past rows))) as (bn & EN & RN). destruct (shows_rows true past rows) as (SO & SV & _ & _). destruct (SV eq_refl) as [rest SR].
  rewrite bb_rows_some by exact SD1. rewrite E. cbn [bind app]. unfold bb_clear. cbn [bb_validity bb_offsets option_map].
  assert (F1 : firstn 1 (snoc_offsets [0%N] (N.of_nat (@length N [])) (somes rows)) = [0%N]) by (unfold snoc_offsets; reflexivity).
  rewrite F1, I1. cbn [bind]. unfold bb_new. cbn [new_validity]. rewrite bb_rows_some by (rewrite SO; exact SD1). rewrite EN. cbn [bind app]. rewrite I2. cbn [bind]. rewrite SO.
  eexists. eexists. split; [reflexivity|]. split; [reflexivity|]. constructor; [|exact I3].
  exists (validity_of (seen true past rows)), rest. destruct (shown_bits past rows bn bm' rest FR1 RN RD SR) as (B1 & B2 & B3).
  assert (LO : length (snoc_offsets [0%N] (N.of_nat (@length N [])) (somes rows)) = length (somes rows) + 1).
  { unfold snoc_offsets. rewrite app_length. pose proof (running_length (somes rows) (N.of_nat (@length N []))) as Q. destruct (running_offsets _ (somes rows)); cbn [tl length] in *; lia. }
  split; [reflexivity|]. split; [reflexivity|]. split; [|split; [exact B3|]]; cbn [bb_data bb_offsets bb_validity same_validity].
  - rewrite LO. split; [exact B1|]. rewrite B2. lia.
  - rewrite LO. unfold few_rows in FR1. pose proof (somes_length rows) as SL. change (2 ^ 63)%N with 9223372036854775808%N in *. lia.
Qed.

Lemma reuse_bin_plain rowss : bb_reuse (bb_new false) rowss = bb_fill false rowss.
Proof.
  induction rowss as [|rows rowss IH]; cbn [bb_reuse bb_fill]; [reflexivity|].
  assert (H : forall rows data offs, match bb_append_rows (mk_bin data (0%N :: offs) None) rows with Ret b => bb_clear b = bb_new false | _ => True end).
  { clear. induction rows as [|[v|] rows IH]; intros data offs; cbn [bb_append_rows]; [reflexivity| |exact I].
    unfold bb_append. cbn [bb_data bb_offsets bb_validity validity_append]. destruct (_ <=? u32_max)%N; cbn [bind]; [|exact I]. apply IH. }
  specialize (H rows [] []). change (mk_bin [] [0%N] None) with (bb_new false) in H. destruct (bb_append_rows (bb_new false) rows) as [b|k|]; cbn [bind]; [|reflexivity..].
  rewrite H, IH. reflexivity.
Qed.

(** * C93 *)

(** C93, exactly, for fixed-width columns: a buffer that is cleared and filled
    again writes what new buffers with the shown rows write, for every encoder,
    every sink and every build. *)
Theorem C93_fixed_exact : forall nl rowss, Forall (rows_allowed nl) rowss ->
  exists bufs fresh, pb_reuse (pb_new nl) rowss = Ret bufs /\ pb_fill nl (shown nl [] rowss) = Ret fresh
    /\ forall (St : Type) (wr : sink_fn St) p sz e s,
         pe_encodes wr p sz e bufs s = pe_encodes wr p sz e fresh s /\ pe_finish wr p sz e bufs s = pe_finish wr p sz e fresh s.
Proof.
  intros [] rowss A.
  - assert (R0 : bm_rep bm_new [] (@dirty N [])) by (eapply rep_ext; [|apply rep_new]; intros i; unfold dirty; cbn [existsb]; rewrite andb_false_r; reflexivity).
    destruct (reuse_prim rowss [] bm_new R0) as (bufs & fresh & E1 & E2 & F). exists bufs, fresh. split; [exact E1|]. split; [exact E2|].
    intros St wr p sz e s. rewrite (pe_encodes_same wr p sz _ _ F), (pe_finish_same wr p sz _ _ F). split; reflexivity.
  - rewrite shown_plain, reuse_prim_plain.
    assert (FE : exists bufs, pb_fill false rowss = Ret bufs).
    { clear -A. induction A as [|rows rowss [X|X] _ [bufs IH]]; [exists []; reflexivity|discriminate X|]. cbn [pb_fill]. unfold pb_new. cbn [new_validity].
      rewrite pb_rows_none by exact X. cbn [bind]. rewrite IH. eexists. reflexivity. }
    destruct FE as [bufs FE]. exists bufs, bufs. split; [exact FE|]. split; [exact FE|]. intros. split; reflexivity.
Qed.
Print Assumptions C93_fixed_exact.

(** C93, exactly, for binary columns: the results are the same (if one panics, so
    does the other). *)
Theorem C93_binary_exact : forall nl rowss, Forall (rows_allowed nl) rowss -> Forall small_data rowss -> Forall few_rows rowss ->
  exists bufs fresh, bb_reuse (bb_new nl) rowss = Ret bufs /\ bb_fill nl (shown nl [] rowss) = Ret fresh
    /\ forall (St : Type) (wr : sink_fn St) p e s r,
         (be_encodes wr p e bufs s = Ret r <-> be_encodes wr p e fresh s = Ret r)
         /\ (be_finish wr p e bufs s = Ret r <-> be_finish wr p e fresh s = Ret r).
Proof.
  intros [] rowss A SD FR.
  - assert (R0 : bm_rep bm_new [] (@dirty (list N) [])) by (eapply rep_ext; [|apply rep_new]; intros i; unfold dirty; cbn [existsb]; rewrite andb_false_r; reflexivity).
    destruct (reuse_bin rowss SD FR [] bm_new R0) as (bufs & fresh & E1 & E2 & F). exists bufs, fresh. split; [exact E1|]. split; [exact E2|].
    intros St wr p e s r. pose proof (be_encodes_same wr p _ _ F e s r). pose proof (be_finish_same wr p _ _ F e s r). tauto.
  - rewrite shown_plain, reuse_bin_plain.
    assert (FE : exists bufs, bb_fill false rowss = Ret bufs).
    { clear -A SD. induction A as [|rows rowss [X|X] _ IH]; [exists []; reflexivity|discriminate X|]. destruct (IH (Forall_inv_tail SD)) as [bufs E].
      pose proof (Forall_inv SD) as Q. cbn [bb_fill]. unfold bb_new. cbn [new_validity]. rewrite bb_rows_none by (exact Q || exact X). cbn [bind]. rewrite E. eexists. reflexivity. }
    destruct FE as [bufs FE]. exists bufs, bufs. split; [exact FE|]. split; [exact FE|]. intros. split; reflexivity.
Qed.
Print Assumptions C93_binary_exact.

(** No null of [rows], except after the last value, and as far as the first 8192
    rows are concerned, stands where one of the [past] rows had a value. *)
Definition over_nulls {T} (past : list (list (option T))) (rows : list (option T)) : Prop :=
  forall r i j v w, In r past -> (N.of_nat i < 8192)%N -> nth_error r i = Some (Some v) ->
    i < j -> nth_error rows j = Some (Some w) -> nth_error rows i <> Some None.

Fixpoint always_over_nulls {T} (past rowss : list (list (option T))) : Prop :=
  match rowss with
  | [] => True
  | rows :: rest => over_nulls past rows /\ always_over_nulls (rows :: past) rest
  end.

Lemma place_none {T} D : @place T D [] = [].
Proof. destruct D; reflexivity. Qed.

Lemma nth_somes {T} (rows : list (option T)) : somes rows <> [] -> exists j w, nth_error rows j = Some (Some w).
Proof.
  induction rows as [|[v|] rows IH]; cbn [somes]; intros H; [destruct (H eq_refl)|exists 0, v; reflexivity|].
  destruct (IH H) as (j & w & E). exists (Datatypes.S j), w. exact E.
Qed.

Lemma place_agree {T} (st : nat -> bool) (rows : list (option T)) : forall k,
  (forall i j w, i < j -> nth_error rows j = Some (Some w) -> nth_error rows i = Some None -> st (k + i) = false) ->
  place (stale_or st k (validity_of rows)) (somes rows) = place (validity_of rows) (somes rows).
Proof.
  induction rows as [|[v|] rows IH]; intros k H; cbn [somes validity_of map is_some stale_or place orb]; [reflexivity| |].
  - f_equal. apply IH. intros i j w L J I0. rewrite Nat.add_succ_comm. apply (H (Datatypes.S i) (Datatypes.S j) w); [lia|exact J|exact I0].
  - destruct (somes rows) as [|v vs] eqn:E; [reflexivity|].
    destruct (nth_somes rows) as (j & w & J); [rewrite E; discriminate|].
    rewrite <- (Nat.add_0_r k), (H 0 (Datatypes.S j) w) by (lia || assumption || reflexivity). rewrite Nat.add_0_r. f_equal. fold (validity_of rows). rewrite <- E in *.
    apply IH. intros i j' w' L J' I0. rewrite Nat.add_succ_comm. apply (H (Datatypes.S i) (Datatypes.S j') w'); [lia|exact J'|exact I0].
Qed.

Lemma over_seen {T} past (rows : list (option T)) : over_nulls past rows -> seen true past rows = seen true [] rows.
Proof.
  intros H. rewrite !display_seen. unfold display. rewrite !(place_agree _ rows 0); [reflexivity| |].
  - intros i j w _ _ _. unfold dirty. cbn [existsb]. apply andb_false_r.
  - intros i j w L J I0. cbn [Nat.add]. unfold dirty. destruct (N.ltb_spec (N.of_nat i) 8192) as [B|B]; [|reflexivity]. cbn [andb].
    destruct (existsb _ past) eqn:X; [|reflexivity]. apply existsb_exists in X. destruct X as (r & IN & NT).
    assert (Q : exists v, nth_error r i = Some (Some v)).
    { destruct (nth_error r i) as [[v|]|] eqn:NE; [exists v; reflexivity| |].
      - unfold validity_of in NT. rewrite (nth_error_nth (map is_some r) i false (x := false)) in NT; [discriminate NT|]. rewrite nth_error_map, NE. reflexivity.
      - rewrite nth_overflow in NT; [discriminate NT|]. rewrite validity_length. apply nth_error_None. exact NE. }
    destruct Q as [v NE]. destruct (H r i j v w IN B NE L J I0).
Qed.

Lemma over_shown {T} (rowss : list (list (option T))) : forall past, always_over_nulls past rowss -> shown true past rowss = map (seen true []) rowss.
Proof.
  induction rowss as [|rows rowss IH]; intros past H; cbn [shown map]; [reflexivity|]. destruct H as [H1 H2]. rewrite (over_seen _ _ H1), (IH _ H2). reflexivity.
Qed.

Lemma display_new {T} (rows : list (option T)) : display [] rows = validity_of rows.
Proof.
  unfold display. rewrite <- (stale_or_none 0 (validity_of rows)) at 2. generalize (validity_of rows), 0. clear. intros l.
  induction l as [|x l IH]; intros k; cbn [stale_or]; [reflexivity|]. rewrite IH. f_equal. f_equal. unfold dirty, no_stale. cbn [existsb]. apply andb_false_r.
Qed.

Lemma fresh_prim rowss : exists fresh trimmed, pb_fill true rowss = Ret fresh /\ pb_fill true (map (seen true []) rowss) = Ret trimmed /\ Forall2 same_prim trimmed fresh.
Proof.
  induction rowss as [|rows rowss (f & t & I1 & I2 & I3)]; cbn [pb_fill map]; [exists [], []; repeat split; constructor|].
  destruct (new_bits (validity_of rows)) as (bm & E & RD). destruct (new_bits (validity_of (seen true [] rows))) as (bn & EN & RN).
  destruct (shows_rows true [] rows) as (SO & SV & _ & _). destruct (SV eq_refl) as [rest SR]. rewrite display_new in SR.
  unfold pb_new. cbn [new_validity]. rewrite !pb_rows_some, E, EN. cbn [bind app]. rewrite I1, I2. cbn [bind].
  eexists. eexists. split; [reflexivity|]. split; [reflexivity|]. constructor; [|exact I3]. split; [cbn [pb_values]; rewrite SO; reflexivity|].
  exists (validity_of (seen true [] rows)), rest. cbn [pb_validity pb_values same_validity].
  split; [split; [exact RN|rewrite <- SR; exact RD]|]. rewrite count_validity. reflexivity.
Qed.

Lemma fresh_bin rowss : Forall small_data rowss -> Forall few_rows rowss ->
  exists fresh trimmed, bb_fill true rowss = Ret fresh /\ bb_fill true (map (seen true []) rowss) = Ret trimmed /\ Forall2 same_bins trimmed fresh.
Proof.
  induction rowss as [|rows rowss IH]; intros SD FR; cbn [bb_fill map]; [exists [], []; repeat split; constructor|].
  destruct (IH (Forall_inv_tail SD) (Forall_inv_tail FR)) as (f & t & I1 & I2 & I3). pose proof (Forall_inv SD) as SD1. pose proof (Forall_inv FR) as FR1. unfold small_data in SD1.
  destruct (new_bits (validity_of rows)) as (bm & E & RD). destruct (new_bits (validity_of (seen true [] rows))) as (bn & EN & RN).
  destruct (shows_rows true [] rows) as (SO & SV & _ & _). destruct (SV eq_refl) as [rest SR].
  unfold bb_new. cbn [new_validity]. rewrite !bb_rows_some by (rewrite ?SO; exact SD1). rewrite E, EN. cbn [bind app]. rewrite I1, I2, SO. cbn [bind].
  eexists. eexists. split; [reflexivity|]. split; [reflexivity|]. constructor; [|exact I3].
  rewrite <- display_new in RD. destruct (shown_bits [] rows bn bm rest FR1 RN RD SR) as (B1 & B2 & B3).
  assert (LO : length (snoc_offsets [0%N] (N.of_nat (@length N [])) (somes rows)) = length (somes rows) + 1).
  { unfold snoc_offsets. rewrite app_length. pose proof (running_length (somes rows) (N.of_nat (@length N []))) as Q. destruct (running_offsets _ (somes rows)); cbn [tl length] in *; lia. }
  exists (validity_of (seen true [] rows)), rest.
  split; [reflexivity|]. split; [reflexivity|]. split; [|split; [exact B3|]]; cbn [bb_data bb_offsets bb_validity same_validity].
  - rewrite LO. split; [exact B1|]. rewrite B2. lia.
  - rewrite LO. unfold few_rows in FR1. pose proof (somes_length rows) as SL. change (2 ^ 63)%N with 9223372036854775808%N in *. lia.
Qed.

Lemma clean_start {T} : bm_rep bm_new [] (@dirty T []).
Proof. eapply rep_ext; [|apply rep_new]. intros i. unfold dirty. cbn [existsb]. rewrite andb_false_r. reflexivity. Qed.

(** C93 without nulls: filling a buffer again is the same as a new buffer, down to
    the buffers themselves. *)
Theorem C93_not_nullable_partial :
  (forall rowss : list (list (option N)), pb_reuse (pb_new false) rowss = pb_fill false rowss)
  /\ (forall rowss, bb_reuse (bb_new false) rowss = bb_fill false rowss).
Proof. split; [exact reuse_prim_plain|exact reuse_bin_plain]. Qed.
Print Assumptions C93_not_nullable_partial.

(** C93 with nulls, as long as no null stands where an earlier filling of the
    buffer had a value: what is written is what new buffers write. *)
Theorem C93_over_nulls_partial :
  (forall rowss : list (list (option N)), always_over_nulls [] rowss ->
     exists bufs fresh, pb_reuse (pb_new true) rowss = Ret bufs /\ pb_fill true rowss = Ret fresh
       /\ forall (St : Type) (wr : sink_fn St) p sz e s, pe_finish wr p sz e bufs s = pe_finish wr p sz e fresh s)
  /\ (forall rowss, always_over_nulls [] rowss -> Forall small_data rowss -> Forall few_rows rowss ->
     exists bufs fresh, bb_reuse (bb_new true) rowss = Ret bufs /\ bb_fill true rowss = Ret fresh
       /\ forall (St : Type) (wr : sink_fn St) p e s r, be_finish wr p e bufs s = Ret r <-> be_finish wr p e fresh s = Ret r).
Proof.
  split.
  - intros rowss H. destruct (reuse_prim rowss [] bm_new clean_start) as (bufs & sh & E1 & E2 & F). destruct (fresh_prim rowss) as (fresh & t & E3 & E4 & G).
    rewrite (over_shown _ _ H), E4 in E2. injection E2 as ->. exists bufs, fresh. split; [exact E1|]. split; [exact E3|].
    intros St wr p sz e s. rewrite <- (pe_finish_same wr p sz _ _ F), <- (pe_finish_same wr p sz _ _ G). reflexivity.
  - intros rowss H SD FR. destruct (reuse_bin rowss SD FR [] bm_new clean_start) as (bufs & sh & E1 & E2 & F). destruct (fresh_bin rowss SD FR) as (fresh & t & E3 & E4 & G).
    rewrite (over_shown _ _ H), E4 in E2. injection E2 as ->. exists bufs, fresh. split; [exact E1|]. split; [exact E3|].
    intros St wr p e s r. pose proof (be_finish_same wr p _ _ F e s r). pose proof (be_finish_same wr p _ _ G e s r). tauto.
Qed.
Print Assumptions C93_over_nulls_partial.

(** * In a segment *)

Inductive same_op : col_op -> col_op -> Prop :=
  | same_write b1 b2 : same_bins b1 b2 -> same_op (CWrite b1) (CWrite b2)
  | same_itself o : same_op o o.

Lemma column_run_same p ops ops' : Forall2 same_op ops ops' -> forall w sg cw, same_ret (column_run p w sg cw ops) (column_run p w sg cw ops').
Proof.
  induction 1 as [|o o' ops ops' H _ IH]; intros w sg cw; cbn [column_run]; [apply same_ret_refl|].
  apply same_ret_bind.
  - destruct H as [b1 b2 (bits & rest & H)|o]; [|apply same_ret_refl]. cbn [column_step]. unfold column_write, bin_encode. destruct (cw_encoder cw) as [e|]; [|apply same_ret_refl].
    rewrite <- (proj1 (proj2 H)). apply same_ret_bind; [|intros a _; apply same_ret_refl].
    apply same_ret_bind; [|intros a _; apply same_ret_refl]. apply (be_encode_same _ _ _ _ _ _ _ _ _ H).
  - intros [[[w' sg'] cw'] res] _. apply same_ret_bind; [apply IH|]. intros a _. apply same_ret_refl.
Qed.

Lemma seg_run_same p ci ops ops' c : Forall2 same_op ops ops' -> forall a w sg,
  same_ret (seg_run p w sg (a ++ SColumn ci ops :: c)) (seg_run p w sg (a ++ SColumn ci ops' :: c)).
Proof.
  intros H. induction a as [|o a IH]; intros w sg; cbn [app seg_run].
  - apply same_ret_bind; [|intros x _; apply same_ret_refl]. cbn [seg_step]. destruct (new_binary_column_writer sg ci) as [sg' [cw|]]; [|apply same_ret_refl].
    apply same_ret_bind; [apply column_run_same; exact H|intros x _; apply same_ret_refl].
  - apply same_ret_bind; [apply same_ret_refl|]. intros [[w' sg'] rs] _. apply same_ret_bind; [apply IH|intros x _; apply same_ret_refl].
Qed.

(** C93 in a segment: a column that is written from one buffer leaves the same
    files, with the same reports, as one written from new buffers with the shown
    rows, whatever the rest of the segment and whatever the disk does. *)
Theorem C93_segment : forall nl rowss, Forall (rows_allowed nl) rowss -> Forall small_data rowss -> Forall few_rows rowss ->
  exists bufs fresh, bb_reuse (bb_new nl) rowss = Ret bufs /\ bb_fill nl (shown nl [] rowss) = Ret fresh
    /\ forall p w sg before ci first last after r,
         let ops b := before ++ SColumn ci (first ++ map CWrite b ++ last) :: after in
         seg_run p w sg (ops bufs) = Ret r <-> seg_run p w sg (ops fresh) = Ret r.
Proof.
  intros [] rowss A SD FR.
  - destruct (reuse_bin rowss SD FR [] bm_new clean_start) as (bufs & fresh & E1 & E2 & F). exists bufs, fresh. split; [exact E1|]. split; [exact E2|].
    intros p w sg before ci first last after r. cbn zeta.
    assert (I0 : forall l, Forall2 same_op l l) by (induction l; constructor; [apply same_itself|assumption]).
    assert (SO : Forall2 same_op (first ++ map CWrite fresh ++ last) (first ++ map CWrite bufs ++ last)).
    { apply Forall2_app; [apply I0|]. apply Forall2_app; [|apply I0]. clear -F. induction F as [|b1 b2 l l' H _ IH]; cbn [map]; constructor; [apply same_write; exact H|exact IH]. }
    pose proof (seg_run_same p ci _ _ after SO before w sg r). tauto.
  - destruct (C93_binary_exact false rowss A SD FR) as (bufs & fresh & E1 & E2 & _). exists bufs, fresh. split; [exact E1|]. split; [exact E2|].
    rewrite shown_plain in E2. rewrite reuse_bin_plain, E2 in E1. injection E1 as ->. intros. reflexivity.
Qed.
Print Assumptions C93_segment.

(** * The values *)

Lemma shown_somes {T} nl (rowss : list (list (option T))) : forall past, map somes (shown nl past rowss) = map somes rowss.
Proof. induction rowss as [|rows rowss IH]; intros past; cbn [shown map]; [reflexivity|]. rewrite IH, (proj1 (shows_rows nl past rows)). reflexivity. Qed.

Lemma somes_concat {T} (rowss : list (list (option T))) : somes (concat rowss) = concat (map somes rowss).
Proof.
  induction rowss as [|rows rowss IH]; cbn [concat map]; [reflexivity|]. rewrite <- IH. clear. induction rows as [|[v|] rows IH]; cbn [app somes]; [reflexivity| |exact IH].
  rewrite IH. reflexivity.
Qed.

Lemma shown_allowed {T} nl (rowss : list (list (option T))) past : Forall (rows_allowed nl) rowss -> Forall (rows_allowed nl) (shown nl past rowss).
Proof.
  destruct nl; intros A; [|rewrite shown_plain; exact A]. clear A. revert past. induction rowss as [|rows rowss IH]; intros past; cbn [shown]; constructor; [left; reflexivity|apply IH].
Qed.

Lemma shown_length {T} nl (rowss : list (list (option T))) : forall past, length (concat (shown nl past rowss)) <= length (concat rowss).
Proof.
  induction rowss as [|rows rowss IH]; intros past; cbn [shown concat]; [lia|]. rewrite !app_length. specialize (IH (rows :: past)).
  pose proof (proj2 (proj2 (proj2 (shows_rows nl past rows)))). lia.
Qed.

Lemma by_somes {T} (P : list T -> Prop) rowss rowss' : map somes rowss = map somes rowss' ->
  Forall (fun r => P (somes r)) rowss -> Forall (fun r => P (somes r)) rowss'.
Proof.
  revert rowss'. induction rowss as [|r rowss IH]; intros [|r' rowss'] E H; try discriminate E; constructor; cbn [map] in E; injection E as E1 E2.
  - rewrite <- E1. exact (Forall_inv H).
  - apply IH; [exact E2|exact (Forall_inv_tail H)].
Qed.

(** However the rows of a binary column are filled in, its values are kept, in
    order, if no buffer has more data than a block. *)
Theorem C93_values_partial : forall p B nl rowss bufs blocks res, (0 < B)%N -> Forall (rows_allowed nl) rowss ->
  Forall (fun rows => N.of_nat (length (concat (somes rows))) <= B /\ B + N.of_nat (length (concat (somes rows))) < 2 ^ 32)%N rowss ->
  (N.of_nat (length (concat rowss)) <= 2 ^ 32 - 8)%N ->
  bb_reuse (bb_new nl) rowss = Ret bufs -> be_column p B nl bufs = Ret (blocks, res) ->
  res = Ok tt
  /\ exists ws, Forall2 (fun w block => layout p nl w [] (snd block)) ws blocks
     /\ concat (map somes ws) = somes (concat rowss).
Proof.
  intros p B nl rowss bufs blocks res HB A HF HL R C.
  assert (SD : Forall small_data rowss).
  { eapply Forall_impl; [|exact HF]. intros r [_ Q]. change (2 ^ 32)%N with 4294967296%N in Q. unfold small_data. lia. }
  assert (FR : Forall few_rows rowss).
  { clear -HL. induction rowss as [|r rowss IH]; constructor; cbn [concat] in HL; rewrite app_length in HL; unfold few_rows in *;
      change (2 ^ 32)%N with 4294967296%N in *; change (2 ^ 63)%N with 9223372036854775808%N in *; [lia|apply IH; lia]. }
  destruct (C93_binary_exact nl rowss A SD FR) as (bufs' & fresh & E1 & E2 & F). rewrite R in E1. injection E1 as <-.
  rewrite somes_concat, <- (shown_somes nl rowss []), <- somes_concat.
  apply (C34_values_kept_partial p B nl (shown nl [] rowss) blocks res HB (shown_allowed nl rowss [] A)).
  - apply (by_somes (fun vs => (N.of_nat (length (concat vs)) <= B /\ B + N.of_nat (length (concat vs)) < 2 ^ 32)%N) rowss); [symmetry; apply shown_somes|exact HF].
  - pose proof (shown_length nl rowss []). lia.
  - unfold be_column_rows. rewrite E2. cbn [bind]. unfold be_column in *. apply bind_inv in C. destruct C as ([[e' bl] re] & C & K).
    apply (F _ collect p (be_new B nl) [] (e', bl, re)) in C. rewrite C. exact K.
Qed.
Print Assumptions C93_values_partial.

(** * Not in general *)

(** C93 as it should be. *)
Definition C93_statement_fixed (p : profile) (sz : nat) (B : N) : Prop := forall nl rowss bufs fresh, Forall (rows_allowed nl) rowss ->
  pb_reuse (pb_new nl) rowss = Ret bufs -> pb_fill nl rowss = Ret fresh -> pe_column p sz B nl bufs = pe_column p sz B nl fresh.
Definition C93_statement_binary (p : profile) (B : N) : Prop := forall nl rowss bufs fresh, Forall (rows_allowed nl) rowss ->
  bb_reuse (bb_new nl) rowss = Ret bufs -> bb_fill nl rowss = Ret fresh -> be_column p B nl bufs = be_column p B nl fresh.

(** The first row of the second batch, a null, looks like a value because the
    first batch had one there: it is read back as the value of the row after it. *)
Theorem C93_refuted : (forall p, ~ C93_statement_fixed p 8 16) /\ (forall p, ~ C93_statement_binary p 128).
Proof.
  split; intros p H.
  - specialize (H true [[Some 1; Some 2]; [None; Some 3; Some 4]]%N).
    destruct (pb_reuse (pb_new true) [[Some 1; Some 2]; [None; Some 3; Some 4]]%N) as [bufs|k|] eqn:E1; [|vm_compute in E1; discriminate E1..].
    destruct (pb_fill true [[Some 1; Some 2]; [None; Some 3; Some 4]]%N) as [fresh|k|] eqn:E2; [|vm_compute in E2; discriminate E2..].
    specialize (H bufs fresh ltac:(repeat constructor) eq_refl eq_refl). vm_compute in E1. injection E1 as <-. vm_compute in E2. injection E2 as <-.
    destruct p; vm_compute in H; discriminate H.
  - specialize (H true [[Some [1]; Some [2]]; [None; Some [3]; Some [4]]]%N).
    destruct (bb_reuse (bb_new true) [[Some [1]; Some [2]]; [None; Some [3]; Some [4]]]%N) as [bufs|k|] eqn:E1; [|vm_compute in E1; discriminate E1..].
    destruct (bb_fill true [[Some [1]; Some [2]]; [None; Some [3]; Some [4]]]%N) as [fresh|k|] eqn:E2; [|vm_compute in E2; discriminate E2..].
    specialize (H bufs fresh ltac:(repeat constructor) eq_refl eq_refl). vm_compute in E1. injection E1 as <-. vm_compute in E2. injection E2 as <-.
    destruct p; vm_compute in H; discriminate H.
Qed.
Print Assumptions C93_refuted.

(** Concrete: three fillings of one buffer.  In the second, rows 0 and 2 are null
    where the first had values; what is written is what new buffers would write
    for the shown rows.  The third has nulls only where no earlier filling had a
    value. *)
Example C93_witness :
  let rowss := [[Some 1; None; Some 2]; [None; Some 3; None; Some 4]; [Some 5; Some 6; Some 7; Some 8; None; Some 9]]%N in
  shown true [] rowss = [[Some 1; None; Some 2]; [Some 3; Some 4]; [Some 5; Some 6; Some 7; Some 8; None; Some 9]]%N
  /\ match pb_reuse (pb_new true) rowss, pb_fill true (shown true [] rowss), pb_fill true rowss with
     | Ret bufs, Ret sh, Ret fresh =>
         pe_column Debug 8 16 true bufs = pe_column Debug 8 16 true sh
         /\ match pe_column Debug 8 16 true bufs, pe_column Debug 8 16 true fresh with
            | Ret (w1, Ok _), Ret (w2, Ok _) =>
                reads_blocks Debug 8 true w1 [[Some 1; None; Some 2]; [Some 3; Some 4]; [Some 5; Some 6]; [Some 7; Some 8]; [None; Some 9]]%N
                /\ reads_blocks Debug 8 true w2 [[Some 1; None; Some 2]; [None; Some 3; None; Some 4]; [Some 5; Some 6]; [Some 7; Some 8]; [None; Some 9]]%N
            | _, _ => False end
     | _, _, _ => False end.
Proof. vm_compute. repeat split. Qed.

(** Concrete, where there are nulls but no harm. *)
Example C93_over_nulls_witness :
  let rowss := [[Some [1]; None; Some [2]]; [Some []; None; Some [4]; Some [5]; None]; [Some [6]; Some [7]; Some [8]]]%N in
  always_over_nulls [] rowss
  /\ match bb_reuse (bb_new true) rowss, bb_fill true rowss with
     | Ret bufs, Ret fresh => bufs <> fresh /\ be_column Release 128 true bufs = be_column Release 128 true fresh
     | _, _ => False end.
Proof.
  split.
  - cbn [always_over_nulls]. split; [intros r i j v w []|]. split; [|split; [|exact I]].
    + intros r i j v w [<-|[]] _ E L J K. destruct i as [|[|[|i]]]; try discriminate E; try discriminate K. destruct i; discriminate E.
    + intros r i j v w _ _ _ _ _ K. destruct i as [|[|[|i]]]; try discriminate K. destruct i; discriminate K.
  - vm_compute. split; [intros E; discriminate E|reflexivity].
Qed.
