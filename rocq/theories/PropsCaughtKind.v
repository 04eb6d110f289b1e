(** Property C105: an encoder of a column with nulls that is given a buffer
    without nulls (indexing_buffer.rs:143-153, 271-280, raw/primitive_enc.rs,
    raw/binary_enc.rs). *)
From Verif Require Import Base BaseProofs Spec SpecRows SpecBin Varint VarintProofs Buffers Observe BitmapProofs BuffersProofs
  Rle RleTrackProofs PropsRle Sink PrimEnc BinEnc ReadBlock ObserveEnc RowsProofs BlockProofs PrimEncProofs PrimRunProofs BinEncProofs
  Offsets BinBlockProofs Caught PropsCaughtBuf PropsCaughtEnc PropsCaughtFix.
Open Scope nat_scope.

(** * How many set bits a bitmap has *)

Definition ones (l : list bool) : nat := length (filter (fun b => b) l).

Lemma ones_app a b : ones (a ++ b) = ones a + ones b.
Proof. unfold ones. rewrite filter_app, app_length. reflexivity. Qed.

Lemma ones_one x : ones [x] = b2n x.
Proof. destruct x; reflexivity. Qed.

(** No more than [n] bits of the bitmap are set, those that an earlier [clear]
    left beyond its length included. *)
Definition at_most (b : bitmap) (n : nat) : Prop :=
  exists bits st, bm_rep b bits st /\ forall m, ones bits + ones (map st (seq (length bits) m)) <= n.

Lemma at_most_new : at_most bm_new 0.
Proof.
  exists [], no_stale. split; [apply rep_new|]. intros m. cbn [ones filter length app Nat.add].
  generalize 0 at 1. induction m as [|m IH]; intros k; [apply le_n|]. cbn [seq map]. change (no_stale k :: map no_stale (seq (S k) m)) with ([no_stale k] ++ map no_stale (seq (S k) m)).
  rewrite ones_app, ones_one. apply (IH (S k)).
Qed.

Lemma append_most b n x : at_most b n -> snd (bm_append_at b x) = Ret tt /\ at_most (fst (bm_append_at b x)) (n + b2n x).
Proof.
  intros (bits & st & H & M). destruct (bm_append_kept b bits st x H) as [E K]. split; [exact E|].
  exists (bits ++ [x || st (length bits)]), st. split; [exact K|]. intros m. rewrite app_length. cbn [length].
  specialize (M (S m)). cbn [seq map] in M. change (st (length bits) :: map st (seq (S (length bits)) m)) with ([st (length bits)] ++ map st (seq (S (length bits)) m)) in M.
  rewrite ones_app, ones_one in M |- *. rewrite Nat.add_1_r.
  destruct x, (st (length bits)); cbn [orb b2n] in *; lia.
Qed.

Lemma loop_most src n : forall fuel dst items pos k, at_most dst k -> items <= n ->
  at_most (fst (bm_append_from_loop_at fuel dst src items pos n)) (k + (n - items)).
Proof.
  assert (W : forall b k k', at_most b k -> k <= k' -> at_most b k').
  { intros b k k' (bits & st & H & M) L. exists bits, st. split; [exact H|]. intros m. specialize (M m). lia. }
  induction fuel as [|fuel IH]; intros dst items pos k H L; cbn [bm_append_from_loop_at]; [apply (W _ k); [exact H|lia]|].
  destruct (Nat.ltb_spec items n) as [I|I]; [|apply (W _ k); [exact H|lia]].
  destruct (bm_is_set src pos) as [bit|x|]; cbn [pure fst]; [|apply (W _ k); [exact H|lia]..].
  destruct (append_most dst k bit H) as [E K]. cbn zeta. rewrite E. cbn [pure].
  assert (L2 : items + b2n bit <= n) by (destruct bit; cbn [b2n]; lia).
  apply (W _ _ _ (IH _ _ (pos + 1) _ K L2)). destruct bit; cbn [b2n] in *; lia.
Qed.

(** What is taken over from another bitmap, at most one set bit for each value. *)
Lemma taken_most bm src pos n k : at_most bm k -> exists bm', fst (validity_append_from_at (Some bm) src pos n) = Some bm' /\ at_most bm' (k + n).
Proof.
  intros H. destruct src as [src|]; cbn [validity_append_from_at fst].
  - eexists. split; [reflexivity|]. pose proof (loop_most src n (S (bm_len src)) bm 0 pos k H (Nat.le_0_l n)) as L. rewrite Nat.sub_0_r in L. exact L.
  - exists bm. split; [reflexivity|]. destruct H as (bits & st & H & M). exists bits, st. split; [exact H|]. intros m. specialize (M m). lia.
Qed.

Lemma put_needs src bits : reads_as src bits -> forall fuel e items pos n x, rle_put_from_loop fuel e src items pos n = Ret x -> n <= items + ones (skipn pos bits).
Proof.
  intros [_ R]. induction fuel as [|fuel IH]; intros e items pos n x; cbn [rle_put_from_loop]; [discriminate|].
  destruct (Nat.ltb_spec items n) as [I|I]; [|lia]. rewrite R. destruct (Nat.ltb_spec pos (length bits)) as [P|P]; cbn [bind]; [|discriminate].
  destruct (rle_put e (nth pos bits false)) as [e1|k|]; cbn [bind]; [|discriminate..]. intros X. apply IH in X. rewrite Nat.add_1_r in X.
  assert (K : skipn pos bits = [nth pos bits false] ++ skipn (S pos) bits).
  { clear - P. revert bits P. induction pos as [|pos IH]; intros [|b bits] P; cbn [length] in P; try lia; [reflexivity|]. cbn [skipn nth]. apply IH. lia. }
  rewrite K, ones_app, ones_one. lia.
Qed.

(** Not enough set bits for [n] values. *)
Lemma put_stuck src k n e : at_most src k -> k < n -> forall x, rle_put_from e src 0 n <> Ret x.
Proof.
  intros (bits & st & H & M) L x X. apply rep_reads in H. apply (put_needs src bits H) in X. cbn [skipn] in X. specialize (M 0). lia.
Qed.

(** * Fixed width *)

(** The encoder holds back more values than its bitmap has set bits. *)
Definition short_fixed (e : prim_enc) : Prop :=
  exists bm n, pb_validity (pe_remaining e) = Some bm /\ at_most bm n /\ n < length (pb_values (pe_remaining e)).

Lemma append_short (b buf : prim_buf N) bm n s e pos : pb_validity b = Some bm -> at_most bm n -> n < length (pb_values b) ->
  let b' := fst (pb_append_from_at b buf s e pos) in
  exists bm' n', pb_validity b' = Some bm' /\ at_most bm' n' /\ n' < length (pb_values b') /\ exists vs, pb_values b' = pb_values b ++ vs.
Proof.
  intros V M L. unfold pb_append_from_at. destruct (slice (pb_values buf) s e) as [chunk|k|] eqn:SL; cbn [pure fst].
  2,3: exists bm, n; repeat split; try assumption; exists []; symmetry; apply app_nil_r.
  assert (LC : length chunk = e - s).
  { unfold slice in SL. destruct (Nat.leb_spec s e); [|discriminate]. destruct (Nat.leb_spec e (length (pb_values buf))); [|discriminate].
    injection SL as <-. rewrite firstn_length, skipn_length. lia. }
  cbn zeta. destruct (_ <? u32_max)%N; cbn [fst pb_validity pb_values].
  - rewrite V. destruct (taken_most bm (pb_validity buf) pos (e - s) n M) as (bm' & E & K). exists bm', (n + (e - s)). rewrite app_length.
    split; [exact E|]. split; [exact K|]. split; [lia|]. eauto.
  - exists bm, n. rewrite app_length. split; [exact V|]. split; [exact M|]. split; [lia|]. eauto.
Qed.

Lemma write_short {S} (wr : sink_fn S) p sz e s : short_fixed e ->
  fst (pe_write_remaining_at wr p sz e s) = (e, s) /\ forall x, snd (pe_write_remaining_at wr p sz e s) <> Ret x.
Proof.
  intros (bm & n & V & M & L). unfold pe_write_remaining_at, pe_write_at.
  assert (E : forall x, encode_primitive_buffer sz (pe_remaining e) 0 (pb_len (pe_remaining e)) 0 (pe_bitmap e) <> Ret x).
  { intros x. unfold encode_primitive_buffer. cbn zeta. destruct (put_varint _ _) as [enc|k|]; cbn [bind]; [|discriminate..].
    destruct (slice _ _ _) as [vs|k|]; cbn [bind]; [|discriminate..]. rewrite V, Nat.sub_0_r.
    destruct (rle_put_from _ _ _ _) as [r|k|] eqn:P; cbn [bind]; [|discriminate..]. destruct (put_stuck bm n (pb_len (pe_remaining e)) _ M L _ P). }
  destruct (encode_primitive_buffer _ _ _ _ _ _) as [x|k|]; [destruct (E x eq_refl)|..]; cbn [pure fst snd]; (split; [reflexivity|discriminate]).
Qed.

Lemma step_short {S} (wr : sink_fn S) p sz e s c : short_fixed e ->
  let r := fix_step wr p sz (e, s) c in
  snd (fst r) = s /\ short_fixed (fst (fst r)) /\ (exists vs, pb_values (pe_remaining (fst (fst r))) = pb_values (pe_remaining e) ++ vs)
  /\ (c = FFlush -> forall x, snd r <> Ret x).
Proof.
  intros H. assert (Q : 0 < pb_len (pe_remaining e)) by (destruct H as (bm & n & _ & _ & L); unfold pb_len; lia).
  assert (N0 : exists vs, pb_values (pe_remaining e) = pb_values (pe_remaining e) ++ vs) by (exists []; symmetry; apply app_nil_r).
  destruct c as [buf|]; cbn [fix_step fst snd].
  - unfold pe_encode_at. destruct (Nat.ltb_spec 0 (pb_len (pe_remaining e))); [|lia].
    destruct (sub64 p _ _) as [want|k|]; cbn [pure fst snd]; [|split; [reflexivity|]; split; [exact H|]; split; [exact N0|discriminate]..].
    destruct (pe_chunk p sz (pb_len buf) 0 want) as [c|k|]; cbn [pure fst snd]; [|split; [reflexivity|]; split; [exact H|]; split; [exact N0|discriminate]..].
    cbn zeta. destruct H as (bm & n & V & M & L).
    destruct (append_short (pe_remaining e) buf bm n 0 c 0 V M L) as (bm' & n' & V' & M' & L' & G).
    set (r := pb_append_from_at (pe_remaining e) buf 0 c 0) in *.
    assert (H1 : short_fixed (pe_set_remaining e (fst r))) by (exists bm', n'; cbn [pe_set_remaining pe_remaining]; auto).
    assert (G1 : exists vs, pb_values (pe_remaining (pe_set_remaining e (fst r))) = pb_values (pe_remaining e) ++ vs) by exact G.
    destruct (snd r) as [vp|k|]; cbn [pure fst snd]; [|split; [reflexivity|]; split; [exact H1|]; split; [exact G1|discriminate]..].
    destruct (_ <? _)%N; cbn [fst snd]; [split; [reflexivity|]; split; [exact H1|]; split; [exact G1|discriminate]|].
    destruct (write_short wr p sz (pe_set_remaining e (fst r)) s H1) as [F NR]. rewrite F.
    destruct (snd (pe_write_remaining_at wr p sz _ s)) as [x|k|]; [destruct (NR x eq_refl)|..]; cbn [pure fst snd];
      (split; [reflexivity|]; split; [exact H1|]; split; [exact G1|discriminate]).
  - unfold pe_flush_at. destruct (Nat.ltb_spec 0 (pb_len (pe_remaining e))); [|lia]. cbn zeta.
    destruct (write_short wr p sz e s H) as [F NR]. rewrite F.
    destruct (snd (pe_write_remaining_at wr p sz e s)) as [x|k|]; [destruct (NR x eq_refl)|..]; cbn [pure fst snd];
      (split; [reflexivity|]; split; [exact H|]; split; [exact N0|discriminate]).
Qed.

(** C105, when it fails for good: an encoder that holds back more values than its
    bitmap has set bits never hands over anything again, and no flush returns,
    whatever is called and whatever the sink does. *)
Theorem C105_short_fixed_partial : forall (S : Type) (wr : sink_fn S) p sz e s bm n calls,
  pb_validity (pe_remaining e) = Some bm -> at_most bm n -> n < length (pb_values (pe_remaining e)) ->
  let r := fix_anyway wr p sz (e, s) calls in
  snd (fst r) = s
  /\ (exists vs, pb_values (pe_remaining (fst (fst r))) = pb_values (pe_remaining e) ++ vs)
  /\ Forall2 (fun c o => c = FFlush -> forall x, o <> Ret x) calls (snd r).
Proof.
  intros S wr p sz e s bm n calls V M L. assert (H : short_fixed e) by (exists bm, n; auto). clear bm n V M L. cbn zeta.
  revert e s H. induction calls as [|c calls IH]; intros e s H; cbn [fix_anyway fst snd].
  { split; [reflexivity|]. split; [exists []; symmetry; apply app_nil_r|constructor]. }
  destruct (step_short wr p sz e s c H) as (K1 & K2 & [vs K3] & K4). destruct (fix_step wr p sz (e, s) c) as [[e1 s1] o]. cbn [fst snd] in *. subst s1.
  destruct (IH e1 s K2) as (I1 & [vs' I2] & I3). split; [exact I1|]. split; [|constructor; assumption].
  exists (vs ++ vs'). rewrite I2, K3, app_assoc. reflexivity.
Qed.
Print Assumptions C105_short_fixed_partial.

(** The encoder without its bitmap. *)
Definition unmarked (e : prim_enc) : prim_enc := pe_set_remaining e (plain_values (pe_remaining e)).

Lemma fix_append_unmarked (b buf : prim_buf N) bm s e pos r : pb_validity b = Some bm -> pb_validity buf = None ->
  (exists v, pb_append_from_at (plain_values b) buf s e pos = (r, Ret v)) ->
  pb_append_from_at b buf s e pos = (mk_prim (pb_values r) (Some bm), Panic PAssert).
Proof.
  intros VB VS [v X]. revert X. unfold pb_append_from_at, plain_values. cbn [pb_values pb_validity]. rewrite VB, VS.
  destruct (slice (pb_values buf) s e) as [chunk|k|]; cbn [pure]; [|discriminate..]. cbn zeta. destruct (_ <? u32_max)%N; [|discriminate].
  cbn [validity_append_from_at fst snd]. intros [= <- _]. reflexivity.
Qed.

(** An encoder with nulls is given a buffer without, which it would only hold back
    if it were an encoder without nulls.  The call panics, the values are held back
    and the bitmap knows nothing of them. *)
Theorem C105_held_fixed_partial : forall (S : Type) (wr : sink_fn S) s p sz fuel e bm buf e',
  pb_validity (pe_remaining e) = Some bm -> pb_validity buf = None -> 0 < length (pb_values buf) + length (pb_values (pe_remaining e)) ->
  pe_encode_at refuse p sz fuel (unmarked e) buf tt = ((e', tt), Ret (Ok tt)) ->
  pe_encode_at wr p sz fuel e buf s = ((pe_set_remaining e (mk_prim (pb_values (pe_remaining e')) (Some bm)), s), Panic PAssert).
Proof.
  intros S wr s p sz fuel e bm buf e' VB VS NZ. unfold pe_encode_at, unmarked. cbn [pe_set_remaining pe_remaining pe_min].
  change (pb_len (plain_values (pe_remaining e))) with (pb_len (pe_remaining e)). cbn zeta.
  destruct (Nat.ltb_spec 0 (pb_len (pe_remaining e))) as [L|L].
  - destruct (sub64 p _ _) as [want|k|]; cbn [pure]; [|discriminate..]. destruct (pe_chunk p sz _ 0 want) as [c|k|]; cbn [pure]; [|discriminate..].
    destruct (pb_append_from_at (plain_values (pe_remaining e)) buf 0 c 0) as [b1 [vp|k|]] eqn:AP; cbn [pure fst snd]; [|discriminate..].
    rewrite (fix_append_unmarked (pe_remaining e) buf bm _ _ _ b1 VB VS (ex_intro _ vp AP)). cbn [pure fst snd].
    destruct (_ <? _)%N; [intros [= <-]; reflexivity|]. unfold pe_write_remaining_at.
    match goal with |- context [pe_write_at refuse p sz ?a ?b ?c ?d ?x tt] => pose proof (fix_write_refused p sz a b c d x) as W; destruct (snd (pe_write_at refuse p sz a b c d x tt)) as [[y|]|k|] end; cbn [pure]; try discriminate.
    destruct (W y eq_refl).
  - destruct fuel as [|fuel]; cbn [pe_loop_at]; [discriminate|]. unfold pb_len in *.
    change (pe_min (pe_set_remaining e (plain_values (pe_remaining e)))) with (pe_min e). change (pe_remaining (pe_set_remaining e (plain_values (pe_remaining e)))) with (plain_values (pe_remaining e)).
    destruct (Nat.ltb_spec 0 (length (pb_values buf))) as [O|O]; [|lia].
    destruct (pe_chunk p sz _ 0 (pe_min e)) as [c|k|]; cbn [pure]; [|discriminate..].
    destruct (_ <? pe_min e)%N.
    + cbn zeta. destruct (pb_append_from_at (plain_values (pe_remaining e)) buf 0 c 0) as [b1 [vp|k|]] eqn:AP; cbn [pure fst snd]; [|discriminate..].
      rewrite (fix_append_unmarked (pe_remaining e) buf bm _ _ _ b1 VB VS (ex_intro _ vp AP)). cbn [pure fst snd]. intros [= <-]. reflexivity.
    + cbn zeta. match goal with |- context [pe_write_at refuse p sz ?a ?b ?c ?d ?x tt] => pose proof (fix_write_refused p sz a b c d x) as W; destruct (snd (pe_write_at refuse p sz a b c d x tt)) as [[y|]|k|] end; cbn [pure]; try discriminate.
      destruct (W y eq_refl).
Qed.
Print Assumptions C105_held_fixed_partial.

(** * Strings *)

Definition short_bin (e : bin_enc) : Prop :=
  exists bm n, bb_validity (be_remaining e) = Some bm /\ at_most bm n /\ n < bb_len (be_remaining e).

Lemma pushed_all p buf : forall count i last offsets o, bb_push_offsets_at p buf i count last offsets = (o, Ret tt) -> length o = length offsets + count.
Proof.
  induction count as [|count IH]; intros i last offsets o; cbn [bb_push_offsets_at]; [intros [= <-]; lia|].
  destruct (bb_item_len p buf i) as [len|k|]; cbn [pure]; [|discriminate..]. destruct (add32 p last len) as [l|k|]; cbn [pure]; [|discriminate..].
  intros X. apply IH in X. rewrite app_length in X. cbn [length] in X. lia.
Qed.

Lemma bin_append_short p b buf bm n e pos : bb_validity b = Some bm -> at_most bm n -> n < bb_len b ->
  let b' := fst (bb_append_from_at p b buf 0 e pos) in
  exists bm' n', bb_validity b' = Some bm' /\ at_most bm' n' /\ n' < bb_len b' /\ exists o, bb_offsets b' = bb_offsets b ++ o.
Proof.
  intros V M L. cbn zeta. destruct (bb_from_grew p b buf 0 e pos) as (_ & G & _). revert G. unfold bb_append_from_at.
  assert (N0 : exists bm' n', bb_validity b = Some bm' /\ at_most bm' n' /\ n' < bb_len b) by (exists bm, n; auto).
  destruct (idx (bb_offsets buf) 0) as [so|k|]; cbn [pure fst]; [|intros G; destruct N0 as (? & ? & ? & ? & ?); eauto 9..].
  destruct (idx (bb_offsets buf) e) as [eo|k|]; cbn [pure fst]; [|intros G; destruct N0 as (? & ? & ? & ? & ?); eauto 9..].
  destruct (sub64 p (N.of_nat e) (N.of_nat 0)) as [cl|k|] eqn:CL; cbn [pure fst]; [|intros G; destruct N0 as (? & ? & ? & ? & ?); eauto 9..].
  assert (CE : N.to_nat cl = e).
  { rewrite sub64_ok in CL by lia. injection CL as <-. lia. }
  cbn zeta. rewrite Nat.sub_0_r. destruct (bb_push_offsets_at p buf 0 e (last (bb_offsets b) 0%N) (bb_offsets b)) as [o out] eqn:PO. cbn [fst snd].
  assert (SH : (exists o', o = bb_offsets b ++ o') -> n < bb_len (mk_bin (bb_data b) o (bb_validity b))).
  { intros [o' ->]. unfold bb_len in *. cbn [bb_offsets]. rewrite app_length. lia. }
  destruct out as [[]|k|]; cbn [pure fst bb_offsets bb_validity]; [|intros G; exists bm, n; auto..].
  destruct (slice (bb_data buf) _ _) as [chunk|k|]; cbn [pure fst bb_offsets bb_validity]; [|intros G; exists bm, n; auto..].
  destruct (_ <? u32_max)%N; cbn [fst bb_offsets bb_validity]; intros G.
  - rewrite V, CE. destruct (taken_most bm (bb_validity buf) pos e n M) as (bm' & E & K). exists bm', (n + e). apply pushed_all in PO.
    split; [exact E|]. split; [exact K|]. split; [|exact G]. unfold bb_len in *. cbn [bb_offsets]. lia.
  - exists bm, n. split; [exact V|]. split; [exact M|]. split; [exact (SH G)|exact G].
Qed.

Lemma bin_write_short {S} (wr : sink_fn S) p e s : short_bin e ->
  fst (be_write_remaining_at wr p e s) = (e, s) /\ forall x, snd (be_write_remaining_at wr p e s) <> Ret x.
Proof.
  intros (bm & n & V & M & L). unfold be_write_remaining_at. cbn zeta. destruct (idx _ _) as [o|k|]; cbn [pure fst snd]; [|split; [reflexivity|discriminate]..].
  unfold be_write_at. match goal with |- context [encode_binary_buffer p ?b ?c 0 ?r] => assert (E : forall x, encode_binary_buffer p b c 0 r <> Ret x) end.
  { intros x. unfold encode_binary_buffer. cbn zeta. destruct (put_varint _ _) as [enc|k|]; cbn [bind]; [|discriminate..].
    destruct (slice _ _ _) as [vs|k|]; cbn [bind]; [|discriminate..]. destruct (item_lens _ _ _ _) as [ls|k|]; cbn [bind]; [|discriminate..].
    destruct (off_encode _ _ _) as [r0|k|]; cbn [bind]; [|discriminate..]. rewrite V. cbn [bc_len]. rewrite Nat2N.id.
    destruct (rle_put_from _ _ _ _) as [r|k|] eqn:P; cbn [bind]; [|discriminate..]. destruct (put_stuck bm n (bb_len (be_remaining e)) _ M L _ P). }
  destruct (encode_binary_buffer _ _ _ _ _) as [x|k|]; [destruct (E x eq_refl)|..]; cbn [pure fst snd]; (split; [reflexivity|discriminate]).
Qed.

Lemma bin_step_short {S} (wr : sink_fn S) p e s c : short_bin e ->
  let r := enc_step wr p (e, s) c in
  snd (fst r) = s /\ short_bin (fst (fst r)) /\ (exists o, bb_offsets (be_remaining (fst (fst r))) = bb_offsets (be_remaining e) ++ o)
  /\ (c = Flush -> forall x, snd r <> Ret x).
Proof.
  intros H. assert (Q : 0 < bb_len (be_remaining e)) by (destruct H as (bm & n & _ & _ & L); lia).
  assert (N0 : exists vs, bb_offsets (be_remaining e) = bb_offsets (be_remaining e) ++ vs) by (exists []; symmetry; apply app_nil_r).
  destruct c as [buf|]; cbn [enc_step fst snd].
  - unfold be_encode_at. destruct (Nat.ltb_spec 0 (bb_len (be_remaining e))); [|lia].
    destruct (sub64 p _ _) as [want|k|]; cbn [pure fst snd]; [|split; [reflexivity|]; split; [exact H|]; split; [exact N0|discriminate]..].
    destruct (be_chunk p buf 0 want) as [c|k|] eqn:EC; cbn [pure fst snd]; [|split; [reflexivity|]; split; [exact H|]; split; [exact N0|discriminate]..].
    apply chunk_le in EC. destruct EC as [C0 _]. rewrite C0.
    cbn zeta. destruct H as (bm & n & V & M & L).
    destruct (bin_append_short p (be_remaining e) buf bm n (bc_end c) 0 V M L) as (bm' & n' & V' & M' & L' & G).
    set (r := bb_append_from_at p (be_remaining e) buf 0 (bc_end c) 0) in *.
    assert (H1 : short_bin (be_set_remaining e (fst r))) by (exists bm', n'; cbn [be_set_remaining be_remaining]; auto).
    assert (G1 : exists vs, bb_offsets (be_remaining (be_set_remaining e (fst r))) = bb_offsets (be_remaining e) ++ vs) by exact G.
    destruct (snd r) as [vp|k|]; cbn [pure fst snd]; [|split; [reflexivity|]; split; [exact H1|]; split; [exact G1|discriminate]..].
    destruct (_ <? _)%N; cbn [fst snd]; [split; [reflexivity|]; split; [exact H1|]; split; [exact G1|discriminate]|].
    destruct (bin_write_short wr p (be_set_remaining e (fst r)) s H1) as [F NR]. rewrite F.
    destruct (snd (be_write_remaining_at wr p _ s)) as [x|k|]; [destruct (NR x eq_refl)|..]; cbn [pure fst snd];
      (split; [reflexivity|]; split; [exact H1|]; split; [exact G1|discriminate]).
  - unfold be_flush_at. destruct (Nat.ltb_spec 0 (bb_len (be_remaining e))); [|lia]. cbn zeta.
    destruct (bin_write_short wr p e s H) as [F NR]. rewrite F.
    destruct (snd (be_write_remaining_at wr p e s)) as [x|k|]; [destruct (NR x eq_refl)|..]; cbn [pure fst snd];
      (split; [reflexivity|]; split; [exact H|]; split; [exact N0|discriminate]).
Qed.

(** As [C105_short_fixed_partial]. *)
Theorem C105_short_binary_partial : forall (S : Type) (wr : sink_fn S) p e s bm n calls,
  bb_validity (be_remaining e) = Some bm -> at_most bm n -> n < bb_len (be_remaining e) ->
  let r := enc_anyway wr p (e, s) calls in
  snd (fst r) = s
  /\ (exists o, bb_offsets (be_remaining (fst (fst r))) = bb_offsets (be_remaining e) ++ o)
  /\ Forall2 (fun c o => c = Flush -> forall x, o <> Ret x) calls (snd r).
Proof.
  intros S wr p e s bm n calls V M L. assert (H : short_bin e) by (exists bm, n; auto). clear bm n V M L. cbn zeta.
  revert e s H. induction calls as [|c calls IH]; intros e s H; cbn [enc_anyway fst snd].
  { split; [reflexivity|]. split; [exists []; symmetry; apply app_nil_r|constructor]. }
  destruct (bin_step_short wr p e s c H) as (K1 & K2 & [vs K3] & K4). destruct (enc_step wr p (e, s) c) as [[e1 s1] o]. cbn [fst snd] in *. subst s1.
  destruct (IH e1 s K2) as (I1 & [vs' I2] & I3). split; [exact I1|]. split; [|constructor; assumption].
  exists (vs ++ vs'). rewrite I2, K3, app_assoc. reflexivity.
Qed.
Print Assumptions C105_short_binary_partial.

Definition unmarked_bin (e : bin_enc) : bin_enc := be_set_remaining e (plainly (be_remaining e)).

Lemma append_unmarked p b buf bm s e pos r : bb_validity b = Some bm -> bb_validity buf = None ->
  (exists v, bb_append_from_at p (plainly b) buf s e pos = (r, Ret v)) ->
  bb_append_from_at p b buf s e pos = (mk_bin (bb_data r) (bb_offsets r) (Some bm), Panic PAssert).
Proof.
  intros VB VS [v X]. revert X. unfold bb_append_from_at, plainly. cbn [bb_data bb_offsets bb_validity]. rewrite VB, VS.
  destruct (idx _ s) as [so|k|]; cbn [pure]; [|discriminate..]. destruct (idx _ e) as [eo|k|]; cbn [pure]; [|discriminate..].
  destruct (sub64 p _ _) as [cl|k|]; cbn [pure]; [|discriminate..]. cbn zeta.
  destruct (snd (bb_push_offsets_at _ _ _ _ _ _)) as [[]|k|]; cbn [pure]; [|discriminate..].
  destruct (slice _ _ _) as [chunk|k|]; cbn [pure]; [|discriminate..]. destruct (_ <? u32_max)%N; [|discriminate].
  cbn [validity_append_from_at fst snd]. intros [= <- _]. reflexivity.
Qed.

(** As [C105_held_fixed_partial]. *)
Theorem C105_held_binary_partial : forall (S : Type) (wr : sink_fn S) s p fuel e bm buf e',
  bb_validity (be_remaining e) = Some bm -> bb_validity buf = None -> 0 < length (bb_offsets buf) + bb_len (be_remaining e) ->
  be_encode_at refuse p fuel (unmarked_bin e) buf tt = ((e', tt), Ret (Ok tt)) ->
  be_encode_at wr p fuel e buf s
  = ((be_set_remaining e (mk_bin (bb_data (be_remaining e')) (bb_offsets (be_remaining e')) (Some bm)), s), Panic PAssert).
Proof.
  intros S wr s p fuel e bm buf e' VB VS NZ. unfold be_encode_at, unmarked_bin. cbn [be_set_remaining be_remaining be_min].
  change (bb_len (plainly (be_remaining e))) with (bb_len (be_remaining e)). change (bb_data (plainly (be_remaining e))) with (bb_data (be_remaining e)). cbn zeta.
  destruct (Nat.ltb_spec 0 (bb_len (be_remaining e))) as [L|L].
  - destruct (sub64 p _ _) as [want|k|]; cbn [pure]; [|discriminate..]. destruct (be_chunk p buf 0 want) as [c|k|]; cbn [pure]; [|discriminate..].
    destruct (bb_append_from_at p (plainly (be_remaining e)) buf (bc_start c) (bc_end c) 0) as [b1 [vp|k|]] eqn:AP; cbn [pure fst snd]; [|discriminate..].
    rewrite (append_unmarked p (be_remaining e) buf bm _ _ _ b1 VB VS (ex_intro _ vp AP)). cbn [pure fst snd].
    destruct (_ <? _)%N; [intros [= <-]; reflexivity|]. unfold be_write_remaining_at. cbn zeta. destruct (idx _ _) as [o|k|]; cbn [pure fst snd]; [|discriminate..].
    match goal with |- context [be_write_at refuse p ?a ?b ?c ?d tt] => pose proof (write_refused p a b c d) as W; destruct (snd (be_write_at refuse p a b c d tt)) as [[x|]|k|] end; cbn [pure]; try discriminate.
    destruct (W x eq_refl).
  - destruct fuel as [|fuel]; cbn [be_loop_at]; [discriminate|].
    change (be_min (be_set_remaining e (plainly (be_remaining e)))) with (be_min e). change (be_remaining (be_set_remaining e (plainly (be_remaining e)))) with (plainly (be_remaining e)).
    destruct (Nat.ltb_spec 0 (length (bb_offsets buf))) as [O|O]; [|lia].
    destruct (be_chunk p buf 0 (be_min e)) as [c|k|]; cbn [pure]; [|discriminate..].
    destruct (bc_size c <? be_min e)%N.
    + cbn zeta. destruct (bb_append_from_at p (plainly (be_remaining e)) buf (bc_start c) (bc_end c) 0) as [b1 [vp|k|]] eqn:AP; cbn [pure fst snd]; [|discriminate..].
      rewrite (append_unmarked p (be_remaining e) buf bm _ _ _ b1 VB VS (ex_intro _ vp AP)). cbn [pure fst snd]. intros [= <-]. reflexivity.
    + cbn zeta. match goal with |- context [be_write_at refuse p ?a ?b ?c ?d tt] => pose proof (write_refused p a b c d) as W; destruct (snd (be_write_at refuse p a b c d tt)) as [[x|]|k|] end; cbn [pure]; try discriminate.
      destruct (W x eq_refl).
Qed.
Print Assumptions C105_held_binary_partial.

(** * From the first call on *)

(** C105 for a new encoder: the first buffer has no nulls, and an encoder without
    nulls would hold it back.  The call panics, and then nothing at all is ever
    handed over, however right the buffers that follow are. *)
Theorem C105_new_fixed_partial : forall (S : Type) (wr : sink_fn S) s p sz B buf e' calls,
  pb_validity buf = None -> 0 < length (pb_values (pe_remaining e')) ->
  pe_encode_at refuse p sz (Datatypes.S (pb_len buf)) (pe_new B false) buf tt = ((e', tt), Ret (Ok tt)) ->
  let r := fix_anyway wr p sz (pe_new B true, s) (FEncode buf :: calls) in
  snd (fst r) = s
  /\ (exists vs, pb_values (pe_remaining (fst (fst r))) = pb_values (pe_remaining e') ++ vs)
  /\ (exists rest, snd r = Panic PAssert :: rest /\ Forall2 (fun c o => c = FFlush -> forall x, o <> Ret x) calls rest).
Proof.
  intros S wr s p sz B buf e' calls VS NZ E. cbn zeta. cbn [fix_anyway fix_step fst snd].
  assert (NB : 0 < length (pb_values buf) + length (pb_values (pe_remaining (pe_new B true)))).
  { destruct buf as [[|x vs] v]; cbn [pb_values length]; [|lia]. exfalso. cbn in E. injection E as E. rewrite <- E in NZ. cbn in NZ. lia. }
  rewrite (C105_held_fixed_partial S wr s p sz _ (pe_new B true) bm_new buf e' eq_refl VS NB E). cbn [fst snd].
  set (e1 := pe_set_remaining (pe_new B true) (mk_prim (pb_values (pe_remaining e')) (Some bm_new))).
  destruct (C105_short_fixed_partial S wr p sz e1 s bm_new 0 calls eq_refl at_most_new NZ) as (I1 & I2 & I3).
  split; [exact I1|]. split; [exact I2|]. eexists. split; [reflexivity|exact I3].
Qed.
Print Assumptions C105_new_fixed_partial.

Theorem C105_new_binary_partial : forall (S : Type) (wr : sink_fn S) s p B buf e' calls,
  bb_validity buf = None -> 0 < bb_len (be_remaining e') ->
  be_encode_at refuse p (length (bb_offsets buf)) (be_new B false) buf tt = ((e', tt), Ret (Ok tt)) ->
  let r := enc_anyway wr p (be_new B true, s) (Encode buf :: calls) in
  snd (fst r) = s
  /\ (exists o, bb_offsets (be_remaining (fst (fst r))) = bb_offsets (be_remaining e') ++ o)
  /\ (exists rest, snd r = Panic PAssert :: rest /\ Forall2 (fun c o => c = Flush -> forall x, o <> Ret x) calls rest).
Proof.
  intros S wr s p B buf e' calls VS NZ E. cbn zeta. cbn [enc_anyway enc_step fst snd].
  assert (NB : 0 < length (bb_offsets buf) + bb_len (be_remaining (be_new B true))).
  { destruct (length (bb_offsets buf)) eqn:Z; [|lia]. exfalso. revert E. unfold be_encode_at. cbn. discriminate. }
  rewrite (C105_held_binary_partial S wr s p _ (be_new B true) bm_new buf e' eq_refl VS NB E). cbn [fst snd].
  set (e1 := be_set_remaining (be_new B true) (mk_bin (bb_data (be_remaining e')) (bb_offsets (be_remaining e')) (Some bm_new))).
  destruct (C105_short_binary_partial S wr p e1 s bm_new 0 calls eq_refl at_most_new NZ) as (I1 & I2 & I3).
  split; [exact I1|]. split; [exact I2|]. eexists. split; [reflexivity|exact I3].
Qed.
Print Assumptions C105_new_binary_partial.

(** The hypotheses hold of one value, and of buffers that come after. *)
Example C105_example :
  let one := fixed_buf false [Some 7%N] in
  let nulls := fixed_buf true [Some 7%N; None; Some 8%N] in
  (let e' := fst (fst (pe_encode_at refuse Debug 8 2 (pe_new 128 false) one tt)) in
   pe_encode_at refuse Debug 8 2 (pe_new 128 false) one tt = ((e', tt), Ret (Ok tt)) /\ pb_values (pe_remaining e') = [7%N])
  /\ (let r := fix_anyway collect Debug 8 (pe_new 128 true, []) [FEncode one; FFlush; FEncode nulls; FFlush; FEncode nulls; FFlush] in
      snd r = [Panic PAssert; Panic PAssert; Ret (Ok tt); Panic PAssert; Ret (Ok tt); Panic PAssert] /\ snd (fst r) = [])
  /\ (let b := plain_buf [[7%N]] in let e' := fst (fst (be_encode_at refuse Debug 2 (be_new 128 false) b tt)) in
      be_encode_at refuse Debug 2 (be_new 128 false) b tt = ((e', tt), Ret (Ok tt)) /\ bb_len (be_remaining e') = 1).
Proof. vm_compute. repeat split. Qed.

(** C105 as one would want it: a call with a buffer of the other kind that panicked
    before anything was handed over changes nothing of what later calls do. *)
Theorem C105_refuted : exists B one nulls,
  pb_fill false [[Some 7%N]] = Ret [one] /\ pb_fill true [[Some 7%N; None; Some 8%N]] = Ret [nulls]
  /\ snd (fix_anyway collect Debug 8 (pe_new B true, []) [FEncode one; FEncode nulls; FFlush]) = [Panic PAssert; Ret (Ok tt); Panic PAssert]
  /\ snd (fst (fix_anyway collect Debug 8 (pe_new B true, []) [FEncode one; FEncode nulls; FFlush])) = []
  /\ snd (fst (fix_anyway collect Debug 8 (pe_new B true, []) [FEncode nulls; FFlush])) = [(2%N, prim_block 8 true [Some 7%N; None; Some 8%N])].
Proof.
  exists 128%N, (fixed_buf false [Some 7%N]), (fixed_buf true [Some 7%N; None; Some 8%N]).
  vm_compute. repeat split.
Qed.
Print Assumptions C105_refuted.

(** * Buffers of any length *)

(** The encoder with the bitmap [bm] for what it holds back. *)
Definition marked (bm : bitmap) (e : prim_enc) : prim_enc := pe_set_remaining e (mk_prim (pb_values (pe_remaining e)) (Some bm)).
Definition marked_bin (bm : bitmap) (e : bin_enc) : bin_enc := be_set_remaining e (mk_bin (bb_data (be_remaining e)) (bb_offsets (be_remaining e)) (Some bm)).

Lemma fix_append_marked (vs : list N) (buf : prim_buf N) bm s e pos : pb_validity buf = None ->
  pb_append_from_at (mk_prim vs (Some bm)) buf s e pos
  = let q := pb_append_from_at (mk_prim vs None) buf s e pos in
    (mk_prim (pb_values (fst q)) (Some bm), match snd q with Ret _ => Panic PAssert | Panic k => Panic k | NoFuel => NoFuel end).
Proof.
  intros VS. unfold pb_append_from_at. cbn [pb_values pb_validity]. rewrite VS. destruct (slice (pb_values buf) s e) as [chunk|k|]; cbn [pure fst snd pb_values]; [|reflexivity..].
  cbn zeta. destruct (_ <? u32_max)%N; reflexivity.
Qed.

Lemma fix_write_marked {S} (wr : sink_fn S) p sz e r buf a b vp s :
  pe_write_at wr p sz (pe_set_remaining e r) buf a b vp s
  = let w := pe_write_at wr p sz e buf a b vp s in ((pe_set_remaining (fst (fst w)) r, snd (fst w)), snd w).
Proof.
  unfold pe_write_at. cbn [pe_set_remaining pe_bitmap pe_rows pe_remaining pe_min].
  destruct (encode_primitive_buffer _ _ _ _ _ _) as [[[en rle] [n lvp]]|k|]; cbn [pure fst snd]; [|reflexivity..].
  destruct (pe_add_rows _ _) as [rows|k|]; cbn [pure fst snd]; [|reflexivity..]. destruct (sub32 p rows 1) as [id|k|]; reflexivity.
Qed.

Lemma write_min {S} (wr : sink_fn S) p sz e buf a b vp s : pe_min (fst (fst (pe_write_at wr p sz e buf a b vp s))) = pe_min e.
Proof.
  unfold pe_write_at. destruct (encode_primitive_buffer _ _ _ _ _ _) as [[[en rle] [n lvp]]|k|]; cbn [pure fst snd]; [|reflexivity..].
  destruct (pe_add_rows _ _) as [rows|k|]; cbn [pure fst snd]; [|reflexivity..]. destruct (sub32 p rows 1) as [id|k|]; reflexivity.
Qed.

Definition short_end {A} (held : nat) (out : outcome (result A)) : outcome (result A) :=
  match out with Ret (Ok x) => if 0 <? held then Panic PAssert else Ret (Ok x) | o => o end.

Lemma fix_loop_marked {S} (wr : sink_fn S) p sz B cap bm buf : 0 < sz -> (0 < B)%N -> fits sz B cap -> (N.of_nat (pb_len buf + cap) < u64_lim)%N ->
  pb_validity buf = None -> forall fuel e pos vp s, pe_min e = B ->
  pe_loop_at wr p sz fuel (pe_set_remaining e (mk_prim [] (Some bm))) buf pos vp s
  = let q := pe_loop_at wr p sz fuel (pe_set_remaining e (mk_prim [] None)) buf pos vp s in
    ((marked bm (fst (fst q)), snd (fst q)), short_end (length (pb_values (pe_remaining (fst (fst q))))) (snd q)).
Proof.
  intros Hs HB HF HL VS. induction fuel as [|fuel IH]; intros e pos vp s HM; cbn [pe_loop_at]; [reflexivity|].
  change (pe_min (pe_set_remaining e ?r)) with (pe_min e). change (pe_remaining (pe_set_remaining e ?r)) with r. rewrite HM.
  destruct (Nat.ltb_spec pos (pb_len buf)) as [L|L]; [|reflexivity].
  rewrite (pe_chunk_ok p sz _ _ B cap Hs HF) by lia. cbn [pure]. destruct (_ <? B)%N.
  - cbn zeta. rewrite fix_append_marked by exact VS. cbn zeta. cbn [fst snd].
    assert (CP : 0 < cap) by (destruct HF; destruct cap; cbn in *; lia).
    set (c := min (pb_len buf) (pos + cap)). assert (CL : pos < c <= pb_len buf) by lia. clearbody c.
    assert (NE : length (pb_values (fst (pb_append_from_at (mk_prim (@nil N) None) buf pos c vp))) = c - pos).
    { unfold pb_append_from_at. unfold slice, pb_len in *. destruct (Nat.leb_spec pos c); [|lia]. destruct (Nat.leb_spec c (length (pb_values buf))); [|lia].
      cbn [andb pure pb_values app]. cbn zeta. destruct (_ <? u32_max)%N; cbn [fst pb_values]; rewrite firstn_length, skipn_length; lia. }
    destruct (pb_append_from_at (mk_prim (@nil N) None) buf pos c vp) as [r [v|k|]]; cbn [fst snd pure pe_set_remaining pe_remaining short_end] in *; [|reflexivity..].
    rewrite NE. destruct (Nat.ltb_spec 0 (c - pos)); [reflexivity|lia].
  - rewrite !fix_write_marked. cbn zeta. pose proof (write_min wr p sz e buf pos (min (pb_len buf) (pos + cap)) vp s) as WM.
    destruct (pe_write_at wr p sz e buf pos (min (pb_len buf) (pos + cap)) vp s) as [[e1 s1] [[lvp|]|k|]]; cbn [fst snd pure] in *; [|reflexivity..].
    apply IH. congruence.
Qed.

(** C105 exactly, for an encoder that holds back nothing and a buffer without nulls
    of any length: the sink is given what an encoder without nulls gives it (so
    blocks without bitmaps).  If nothing is left to hold back, the call ends as it
    does there and the mistake goes unnoticed.  Else it panics, and the rest is held
    back without marks. *)
Theorem C105_long_fixed_partial : forall (S : Type) (wr : sink_fn S) s p sz B cap fuel e bm buf,
  0 < sz -> (0 < B)%N -> (B <= N.of_nat (cap * sz) < B + N.of_nat sz)%N -> (N.of_nat (pb_len buf + cap) < 2 ^ 64)%N ->
  pe_min e = B -> pe_remaining e = mk_prim [] (Some bm) -> pb_validity buf = None ->
  let q := pe_encode_at wr p sz fuel (unmarked e) buf s in
  let held := pb_values (pe_remaining (fst (fst q))) in
  pe_encode_at wr p sz fuel e buf s
  = ((pe_set_remaining (fst (fst q)) (mk_prim held (Some bm)), snd (fst q)),
     match snd q with Ret (Ok tt) => if 0 <? length held then Panic PAssert else Ret (Ok tt) | o => o end).
Proof.
  intros S wr s p sz B cap fuel e bm buf Hs HB HF HL HM RE VS. cbn zeta. unfold pe_encode_at, unmarked. cbn [pe_set_remaining pe_remaining].
  rewrite RE. cbn [pb_len plain_values pb_values length Nat.ltb Nat.leb]. fold (pe_set_remaining e (mk_prim [] None)).
  pose proof (fix_loop_marked wr p sz B cap bm buf Hs HB HF HL VS fuel e 0 0 s HM) as X. rewrite <- RE in X.
  replace (pe_set_remaining e (pe_remaining e)) with e in X by (destruct e; reflexivity). rewrite X. cbn zeta.
  change (plain_values (mk_prim [] (Some bm))) with (mk_prim (@nil N) None).
  destruct (pe_loop_at wr p sz fuel (pe_set_remaining e (mk_prim [] None)) buf 0 0 s) as [[e1 s1] [[[]|]|k|]]; reflexivity.
Qed.
Print Assumptions C105_long_fixed_partial.

Lemma append_marked p d o buf bm s e pos : bb_validity buf = None ->
  bb_append_from_at p (mk_bin d o (Some bm)) buf s e pos
  = let q := bb_append_from_at p (mk_bin d o None) buf s e pos in
    (mk_bin (bb_data (fst q)) (bb_offsets (fst q)) (Some bm), match snd q with Ret _ => Panic PAssert | Panic k => Panic k | NoFuel => NoFuel end).
Proof.
  intros VS. unfold bb_append_from_at. cbn [bb_data bb_offsets bb_validity]. rewrite VS.
  destruct (idx _ s) as [so|k|]; cbn [pure fst snd]; [|reflexivity..]. destruct (idx _ e) as [eo|k|]; cbn [pure fst snd]; [|reflexivity..].
  destruct (sub64 p _ _) as [cl|k|]; cbn [pure fst snd]; [|reflexivity..]. cbn zeta.
  destruct (snd (bb_push_offsets_at _ _ _ _ _ _)) as [[]|k|]; cbn [pure fst snd]; [|reflexivity..].
  destruct (slice _ _ _) as [chunk|k|]; cbn [pure fst snd]; [|reflexivity..]. destruct (_ <? u32_max)%N; reflexivity.
Qed.

Lemma write_marked {S} (wr : sink_fn S) p e r buf c vp s :
  be_write_at wr p (be_set_remaining e r) buf c vp s
  = let w := be_write_at wr p e buf c vp s in ((be_set_remaining (fst (fst w)) r, snd (fst w)), snd w).
Proof.
  unfold be_write_at. cbn [be_set_remaining be_bitmap be_rows be_remaining be_min].
  destruct (encode_binary_buffer _ _ _ _ _) as [[[en rle] [n lvp]]|k|]; cbn [pure fst snd]; [|reflexivity..].
  destruct (be_add_rows _ _) as [rows|k|]; cbn [pure fst snd]; [|reflexivity..]. destruct (sub32 p rows 1) as [id|k|]; reflexivity.
Qed.

Lemma find_below p : forall l so m i r, find_offset p l so m i = Ret (Some r) -> fst r < i + length l.
Proof.
  induction l as [|x l IH]; intros so m i r; cbn [find_offset]; [discriminate|].
  destruct (sub32 p x so) as [d|k|]; cbn [bind]; [|discriminate..]. destruct (_ <=? _)%N.
  - intros [= <-]. cbn [fst length]. lia.
  - intros H. apply IH in H. cbn [length]. lia.
Qed.

Lemma chunk_below p buf start m c : start < length (bb_offsets buf) -> be_chunk p buf start m = Ret c -> bc_end c < length (bb_offsets buf).
Proof.
  intros L. unfold be_chunk. cbn zeta. destruct (idx (bb_offsets buf) start) as [so|k|]; cbn [bind]; [|discriminate..].
  destruct (find_offset p (skipn start (bb_offsets buf)) so m 0) as [[r|]|k|] eqn:F; cbn [bind]; [| |discriminate..].
  - destruct r as [ep eo]. apply find_below in F. rewrite skipn_length in F. cbn [fst] in F.
    destruct (sub32 p eo so) as [sz|k|]; cbn [bind]; [|discriminate..]. destruct (sub64 p _ _) as [ln|k|]; cbn [bind]; [|discriminate..].
    intros [= <-]. cbn [bc_end]. lia.
  - destruct (idx (bb_offsets buf) (length (bb_offsets buf) - 1)) as [o|k|]; cbn [bind]; [|discriminate..].
    destruct (sub32 p o so) as [sz|k|]; cbn [bind]; [|discriminate..]. destruct (sub64 p _ _) as [ln|k|]; cbn [bind]; [|discriminate..].
    intros [= <-]. cbn [bc_end]. lia.
Qed.

Definition not_well (out : outcome (result unit)) : outcome (result unit) := match out with Ret (Ok _) => Panic PAssert | o => o end.

Lemma loop_marked {S} (wr : sink_fn S) p bm buf d o : bb_validity buf = None ->
  forall fuel e pos vp s, pos < length (bb_offsets buf) ->
  be_loop_at wr p fuel (be_set_remaining e (mk_bin d o (Some bm))) buf pos vp s
  = let q := be_loop_at wr p fuel (be_set_remaining e (mk_bin d o None)) buf pos vp s in
    ((marked_bin bm (fst (fst q)), snd (fst q)), not_well (snd q)).
Proof.
  intros VS. induction fuel as [|fuel IH]; intros e pos vp s HP; cbn [be_loop_at]; [reflexivity|].
  change (be_min (be_set_remaining e ?r)) with (be_min e). change (be_remaining (be_set_remaining e ?r)) with r.
  destruct (Nat.ltb_spec pos (length (bb_offsets buf))) as [L|L]; [|lia].
  destruct (be_chunk p buf pos (be_min e)) as [c|k|] eqn:EC; cbn [pure]; [|reflexivity..]. apply chunk_below in EC; [|exact L].
  destruct (_ <? be_min e)%N.
  - cbn zeta. rewrite append_marked by exact VS. cbn zeta. cbn [fst snd].
    destruct (bb_append_from_at p (mk_bin d o None) buf (bc_start c) (bc_end c) vp) as [r [v|k|]]; reflexivity.
  - rewrite !write_marked. cbn zeta.
    destruct (be_write_at wr p e buf c vp s) as [[e1 s1] [[lvp|]|k|]]; cbn [fst snd pure] in *; [|reflexivity..].
    apply IH. exact EC.
Qed.

(** As [C105_long_fixed_partial]; but a string column always panics in the end, even
    if there is nothing to hold back. *)
Theorem C105_long_binary_partial : forall (S : Type) (wr : sink_fn S) s p fuel e bm buf,
  bb_len (be_remaining e) = 0 -> bb_validity (be_remaining e) = Some bm -> bb_validity buf = None -> 0 < length (bb_offsets buf) ->
  let q := be_encode_at wr p fuel (unmarked_bin e) buf s in
  be_encode_at wr p fuel e buf s
  = ((be_set_remaining (fst (fst q)) (mk_bin (bb_data (be_remaining (fst (fst q)))) (bb_offsets (be_remaining (fst (fst q)))) (Some bm)), snd (fst q)),
     match snd q with Ret (Ok tt) => Panic PAssert | o => o end).
Proof.
  intros S wr s p fuel e bm buf L0 VB VS LO. cbn zeta. unfold be_encode_at, unmarked_bin. cbn [be_set_remaining be_remaining].
  change (bb_len (plainly (be_remaining e))) with (bb_len (be_remaining e)). rewrite L0. cbn [Nat.ltb Nat.leb]. fold (be_set_remaining e (plainly (be_remaining e))).
  pose proof (loop_marked wr p bm buf (bb_data (be_remaining e)) (bb_offsets (be_remaining e)) VS fuel e 0 0 s LO) as X. rewrite <- VB in X.
  replace (be_set_remaining e (mk_bin (bb_data (be_remaining e)) (bb_offsets (be_remaining e)) (bb_validity (be_remaining e)))) with e in X by (destruct e as [[]]; reflexivity).
  etransitivity; [exact X|]. clear X. cbn zeta. unfold plainly.
  destruct (be_loop_at wr p fuel (be_set_remaining e (mk_bin (bb_data (be_remaining e)) (bb_offsets (be_remaining e)) None)) buf 0 0 s) as [[e1 s1] [[[]|]|k|]]; reflexivity.
Qed.
Print Assumptions C105_long_binary_partial.

(** If something is held back already, the sink is given nothing, the call does not
    return, and a first part of the values is taken over without marks. *)
Theorem C105_pending_fixed_partial : forall (S : Type) (wr : sink_fn S) s p sz fuel e bm buf,
  0 < length (pb_values (pe_remaining e)) -> pb_validity (pe_remaining e) = Some bm -> pb_validity buf = None ->
  let r := pe_encode_at wr p sz fuel e buf s in
  snd (fst r) = s /\ (forall x, snd r <> Ret x)
  /\ exists k, pe_remaining (fst (fst r)) = mk_prim (pb_values (pe_remaining e) ++ firstn k (pb_values buf)) (Some bm).
Proof.
  intros S wr s p sz fuel e bm buf LH VB VS. cbn zeta. unfold pe_encode_at.
  assert (RE : pe_remaining e = mk_prim (pb_values (pe_remaining e)) (Some bm)) by (rewrite <- VB; destruct (pe_remaining e); reflexivity).
  assert (K0 : exists k, pe_remaining e = mk_prim (pb_values (pe_remaining e) ++ firstn k (pb_values buf)) (Some bm)) by (exists 0; cbn [firstn]; rewrite app_nil_r; exact RE).
  destruct (Nat.ltb_spec 0 (pb_len (pe_remaining e))) as [L|L]; [|unfold pb_len in L; lia].
  destruct (sub64 p _ _) as [want|k|]; cbn [pure fst snd]; [|split; [reflexivity|]; split; [discriminate|exact K0]..].
  destruct (pe_chunk p sz _ 0 want) as [c|k|]; cbn [pure fst snd]; [|split; [reflexivity|]; split; [discriminate|exact K0]..].
  cbn zeta. pose proof (fix_append_marked (pb_values (pe_remaining e)) buf bm 0 c 0 VS) as AM. rewrite <- RE in AM. cbn zeta in AM. rewrite AM. clear AM. cbn [fst snd].
  assert (KV : exists k, pb_values (fst (pb_append_from_at (mk_prim (pb_values (pe_remaining e)) None) buf 0 c 0)) = pb_values (pe_remaining e) ++ firstn k (pb_values buf)).
  { unfold pb_append_from_at, slice. destruct (_ && _); cbn [pure fst pb_values]; [|exists 0; cbn [firstn]; rewrite app_nil_r; reflexivity].
    cbn zeta. exists c. rewrite Nat.sub_0_r. cbn [skipn]. destruct (_ <? u32_max)%N; reflexivity. }
  destruct KV as [k KV]. rewrite KV.
  destruct (snd (pb_append_from_at _ buf 0 c 0)) as [v|j|]; cbn [pure fst snd pe_set_remaining pe_remaining]; (split; [reflexivity|]; split; [discriminate|eauto]).
Qed.
Print Assumptions C105_pending_fixed_partial.

Theorem C105_pending_binary_partial : forall (S : Type) (wr : sink_fn S) s p fuel e bm buf,
  0 < bb_len (be_remaining e) -> bb_validity (be_remaining e) = Some bm -> bb_validity buf = None ->
  let r := be_encode_at wr p fuel e buf s in
  snd (fst r) = s /\ (forall x, snd r <> Ret x) /\ bb_validity (be_remaining (fst (fst r))) = Some bm
  /\ (exists d, bb_data (be_remaining (fst (fst r))) = bb_data (be_remaining e) ++ d)
  /\ (exists o, bb_offsets (be_remaining (fst (fst r))) = bb_offsets (be_remaining e) ++ o).
Proof.
  intros S wr s p fuel e bm buf LH VB VS. cbn zeta. unfold be_encode_at.
  assert (K0 : (exists d, bb_data (be_remaining e) = bb_data (be_remaining e) ++ d) /\ (exists o, bb_offsets (be_remaining e) = bb_offsets (be_remaining e) ++ o))
    by (split; exists []; symmetry; apply app_nil_r).
  destruct (Nat.ltb_spec 0 (bb_len (be_remaining e))) as [L|L]; [|lia].
  destruct (sub64 p _ _) as [want|k|]; cbn [pure fst snd]; [|split; [reflexivity|]; split; [discriminate|]; split; [exact VB|exact K0]..].
  destruct (be_chunk p buf 0 want) as [c|k|]; cbn [pure fst snd]; [|split; [reflexivity|]; split; [discriminate|]; split; [exact VB|exact K0]..].
  cbn zeta. destruct (bb_from_grew p (be_remaining e) buf (bc_start c) (bc_end c) 0) as (G1 & G2 & _).
  assert (RE : be_remaining e = mk_bin (bb_data (be_remaining e)) (bb_offsets (be_remaining e)) (Some bm)) by (rewrite <- VB; destruct (be_remaining e); reflexivity).
  pose proof (append_marked p (bb_data (be_remaining e)) (bb_offsets (be_remaining e)) buf bm (bc_start c) (bc_end c) 0 VS) as AM. rewrite <- RE in AM. cbn zeta in AM.
  assert (NR : forall x, snd (bb_append_from_at p (be_remaining e) buf (bc_start c) (bc_end c) 0) <> Ret x).
  { rewrite AM. cbn [snd]. destruct (snd _); discriminate. }
  assert (VV : bb_validity (fst (bb_append_from_at p (be_remaining e) buf (bc_start c) (bc_end c) 0)) = Some bm) by (rewrite AM; reflexivity). clear AM.
  destruct (bb_append_from_at p (be_remaining e) buf (bc_start c) (bc_end c) 0) as [r [v|j|]]; cbn [fst snd pure be_set_remaining be_remaining] in *;
    [destruct (NR v eq_refl)|..]; (split; [reflexivity|]; split; [discriminate|]; split; [exact VV|]; split; assumption).
Qed.
Print Assumptions C105_pending_binary_partial.

(** Three values in blocks of two: one block without a bitmap, a value without a
    mark and a panic; four values: two blocks and nothing is noticed.  Strings: a
    block and a panic though nothing is held back; and what is held back by one such
    call is joined by the next. *)
Example C105_long_example :
  (let r := fix_anyway collect Debug 8 (pe_new 16 true, []) [FEncode (fixed_buf false [Some 1; Some 2; Some 3]%N)] in
   snd (fst r) = [(1%N, prim_block 8 false [Some 1; Some 2]%N)] /\ snd r = [Panic PAssert] /\ pb_values (pe_remaining (fst (fst r))) = [3%N])
  /\ (let r := fix_anyway collect Debug 8 (pe_new 16 true, []) [FEncode (fixed_buf false [Some 1; Some 2; Some 3; Some 4]%N)] in
   snd (fst r) = [(1%N, prim_block 8 false [Some 1; Some 2]%N); (3%N, prim_block 8 false [Some 3; Some 4]%N)] /\ snd r = [Ret (Ok tt)])
  /\ (let r := enc_anyway collect Debug (be_new 2 true, []) [Encode (plain_buf [[1; 2]; [3]]%N); Encode (plain_buf [[4; 5]]%N)] in
   snd (fst r) = [(0%N, bin_block false [Some [1; 2]%N] [])] /\ snd r = [Panic PAssert; Panic PAssert] /\ bb_data (be_remaining (fst (fst r))) = [3; 4; 5]%N)
  /\ (let r := enc_anyway collect Debug (be_new 2 true, []) [Encode (plain_buf [[1; 2]]%N)] in
   snd (fst r) = [(0%N, bin_block false [Some [1; 2]%N] [])] /\ snd r = [Panic PAssert] /\ bb_data (be_remaining (fst (fst r))) = []).
Proof. vm_compute. repeat split. Qed.
