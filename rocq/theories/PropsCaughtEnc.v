(** C102: a binary column whose calls panicked. *)
From Verif Require Import Base BaseProofs Spec SpecRows SpecBin Varint VarintProofs Buffers Observe BitmapProofs BuffersProofs Rle Offsets OffsetsProofs Sink BinEnc RowsProofs BlockProofs BinBlockProofs RleTrackProofs PrimEnc BinEncProofs Caught PropsCaughtBuf.
Open Scope nat_scope.

(** * What the encoder held before does not matter *)

Lemma like_put_from src n : forall fuel a b items pos, rle_like a b ->
  match rle_put_from_loop fuel a src items pos n, rle_put_from_loop fuel b src items pos n with
  | Ret x, Ret y => rle_like (fst x) (fst y) /\ snd x = snd y
  | Panic j, Panic k => j = k
  | NoFuel, NoFuel => True
  | _, _ => False
  end.
Proof.
  induction fuel as [|fuel IH]; intros a b items pos L; cbn [rle_put_from_loop]; [exact I|].
  destruct (items <? n); [|cbn; auto]. destruct (bm_is_set src pos) as [bit|k|]; cbn [bind]; [|reflexivity|exact I].
  pose proof (like_put a b bit L) as P. destruct (rle_put a bit), (rle_put b bit); cbn [like_outcome] in P; try contradiction; cbn [bind]; [apply IH; exact P|exact P|exact I].
Qed.

(** The scratch space that a panic inside [encode_binary_buffer] leaves in any
    state has no effect on what is encoded next: this is why [be_write_at] may
    leave it as it was. *)
Lemma scratch_unused p buf c pos rle rle' :
  match encode_binary_buffer p buf c pos rle, encode_binary_buffer p buf c pos rle' with
  | Ret (a, _, n), Ret (a', _, n') => a = a' /\ n = n'
  | Panic j, Panic k => j = k
  | NoFuel, NoFuel => True
  | _, _ => False
  end.
Proof.
  unfold encode_binary_buffer.
  destruct (put_varint [] (bc_size c)) as [enc|k|]; cbn [bind]; [|reflexivity|exact I].
  destruct (slice (bb_data buf) _ _) as [data|k|]; cbn [bind]; [|reflexivity|exact I].
  destruct (item_lens p buf _ _) as [deltas|k|]; cbn [bind]; [|reflexivity|exact I].
  destruct (off_encode p deltas _) as [r|k|]; cbn [bind]; [|reflexivity|exact I]. cbn zeta.
  destruct (bb_validity buf) as [v|]; [|auto]. unfold rle_put_from.
  assert (L : rle_like (rle_clear rle) (rle_clear rle')) by (right; repeat split).
  pose proof (like_put_from v (N.to_nat (bc_len c)) (S (bm_len v)) _ _ 0 pos L) as P.
  destruct (rle_put_from_loop _ (rle_clear rle) _ _ _ _) as [[x i]|k|], (rle_put_from_loop _ (rle_clear rle') _ _ _ _) as [[y j]|k'|]; try contradiction; cbn [bind]; [|exact P|exact I].
  cbn [fst snd] in *. destruct P as [P ->]. apply like_flush in P. unfold out_of in P.
  destruct (rle_flush x) as [x'|k|], (rle_flush y) as [y'|k'|]; cbn [bind] in *; try discriminate; try exact I; injection P as P; [rewrite P; auto|exact P].
Qed.

(** * Stuck columns *)

Inductive enc_call := Encode (buf : bin_buf) | Flush.

Section Calls.
Context {S : Type} (wr : sink_fn S) (p : profile).

(** One call, and whether it returned. *)
Definition enc_step (x : bin_enc * S) (c : enc_call) : caught (bin_enc * S) (result unit) :=
  match c with
  | Encode buf => be_encode_at wr p (length (bb_offsets buf)) (fst x) buf (snd x)
  | Flush => be_flush_at wr p (fst x) (snd x)
  end.

(** Going on whatever the calls do. *)
Fixpoint enc_anyway (x : bin_enc * S) (calls : list enc_call) : (bin_enc * S) * list (outcome (result unit)) :=
  match calls with
  | [] => (x, [])
  | c :: rest => let r := enc_step x c in let y := enc_anyway (fst r) rest in (fst y, snd r :: snd y)
  end.
End Calls.

(** How many offsets the calls bring. *)
Definition brings (c : enc_call) : nat := match c with Encode buf => length (bb_offsets buf) | Flush => 0 end.

Lemma find_le p : forall l from m i r, find_offset p l from m i = Ret (Some r) -> fst r < i + length l.
Proof.
  induction l as [|o l IH]; intros from m i r; cbn [find_offset]; [discriminate|].
  destruct (sub32 p o from) as [d|k|]; cbn [bind]; [|discriminate..]. destruct (m <=? d)%N.
  - intros [= <-]. cbn [fst length]. lia.
  - intros H. apply IH in H. cbn [length]. lia.
Qed.

Lemma chunk_le p buf start m c : be_chunk p buf start m = Ret c -> bc_start c = start /\ bc_end c <= length (bb_offsets buf).
Proof.
  unfold be_chunk. cbn zeta. destruct (idx (bb_offsets buf) start) as [so|k|]; cbn [bind]; [|discriminate..].
  destruct (find_offset p (skipn start (bb_offsets buf)) so m 0) as [[r|]|k|] eqn:F; cbn [bind]; [| |discriminate..].
  - destruct r as [ep eo]. apply find_le in F. rewrite skipn_length in F. cbn [fst] in F.
    destruct (sub32 p eo so) as [sz|k|]; cbn [bind]; [|discriminate..]. destruct (sub64 p _ _) as [ln|k|]; cbn [bind]; [|discriminate..].
    intros [= <-]. cbn [bc_start bc_end]. split; [reflexivity|lia].
  - destruct (idx (bb_offsets buf) (length (bb_offsets buf) - 1)) as [o|k|]; cbn [bind]; [|discriminate..].
    destruct (sub32 p o so) as [sz|k|]; cbn [bind]; [|discriminate..]. destruct (sub64 p _ _) as [ln|k|]; cbn [bind]; [|discriminate..].
    intros [= <-]. cbn [bc_start bc_end]. split; [reflexivity|lia].
Qed.

Lemma pushed_le p buf : forall count i last offsets, length (fst (bb_push_offsets_at p buf i count last offsets)) <= length offsets + count.
Proof.
  induction count as [|count IH]; intros i last offsets; cbn [bb_push_offsets_at fst]; [lia|].
  destruct (bb_item_len p buf i) as [len|k|]; cbn [pure fst]; [|lia..].
  destruct (add32 p last len) as [l|k|]; cbn [pure fst]; [|lia..].
  specialize (IH (S i) l (offsets ++ [l])). rewrite app_length in IH. cbn [length] in IH. lia.
Qed.

Lemma from_len p b buf s e pos :
  length (bb_offsets b) <= length (bb_offsets (fst (bb_append_from_at p b buf s e pos))) <= length (bb_offsets b) + (e - s).
Proof.
  destruct (bb_from_grew p b buf s e pos) as (_ & [o O] & _). split; [rewrite O, app_length; lia|].
  unfold bb_append_from_at.
  destruct (idx (bb_offsets buf) s) as [so|k|]; cbn [pure fst]; [|lia..].
  destruct (idx (bb_offsets buf) e) as [eo|k|]; cbn [pure fst]; [|lia..].
  destruct (sub64 p _ _) as [cl|k|]; cbn [pure fst]; [|lia..]. cbn zeta.
  pose proof (pushed_le p buf (e - s) s (last (bb_offsets b) 0%N) (bb_offsets b)) as L.
  destruct (snd (bb_push_offsets_at p buf s (e - s) (last (bb_offsets b) 0%N) (bb_offsets b))) as [[]|k|]; cbn [pure fst bb_offsets]; [|exact L..].
  destruct (slice (bb_data buf) _ _) as [chunk|k|]; cbn [pure fst bb_offsets]; [|exact L..].
  destruct (_ <? u32_max)%N; cbn [fst bb_offsets]; exact L.
Qed.

Lemma lens_count p buf : forall count i l, item_lens p buf i count = Ret l -> length l = count.
Proof.
  induction count as [|count IH]; intros i l; cbn [item_lens]; [intros [= <-]; reflexivity|].
  destruct (bb_item_len p buf i) as [x|k|]; cbn [bind]; [|discriminate..].
  destruct (item_lens p buf (S i) count) as [r|k|] eqn:E; cbn [bind]; [|discriminate..]. intros [= <-]. cbn [length]. f_equal. exact (IH _ _ E).
Qed.

Lemma too_many p buf c pos rle : 128 < bc_end c - bc_start c -> (N.of_nat (bc_end c - bc_start c) < 2 ^ 63)%N ->
  forall x, encode_binary_buffer p buf c pos rle <> Ret x.
Proof.
  intros M L x. unfold encode_binary_buffer.
  destruct (put_varint [] (bc_size c)) as [enc|k|]; cbn [bind]; [|discriminate..].
  destruct (slice (bb_data buf) _ _) as [data|k|]; cbn [bind]; [|discriminate..].
  destruct (item_lens p buf _ _) as [deltas|k|] eqn:E; cbn [bind]; [|discriminate..]. apply lens_count in E.
  rewrite off_encode_panics; [discriminate|right; lia|rewrite E; exact L].
Qed.

Lemma stuck_remaining {S} (wr : sink_fn S) p e s : 128 < bb_len (be_remaining e) -> (N.of_nat (bb_len (be_remaining e)) < 2 ^ 63)%N ->
  fst (be_write_remaining_at wr p e s) = (e, s) /\ forall x, snd (be_write_remaining_at wr p e s) <> Ret x.
Proof.
  intros M L. unfold be_write_remaining_at. cbn zeta. destruct (idx _ _) as [o|k|]; cbn [pure fst snd]; [|split; [reflexivity|discriminate]..].
  unfold be_write_at.
  pose proof (too_many p (be_remaining e) (mk_bchunk 0 (length (bb_offsets (be_remaining e)) - 1) 0 o o (N.of_nat (bb_len (be_remaining e)))) 0 (be_bitmap e)) as T.
  cbn [bc_start bc_end] in T. rewrite Nat.sub_0_r in T. specialize (T M L).
  destruct (encode_binary_buffer _ _ _ _ _) as [x|k|]; [destruct (T x eq_refl)|..]; cbn [pure fst snd]; (split; [reflexivity|discriminate]).
Qed.

(** C102, when it fails for good: once more than 128 items are held back, no call
    hands over anything any more, and no flush returns, whatever is called and
    whether the panics are caught or not. *)
Theorem C102_stuck_partial : forall (S : Type) (wr : sink_fn S) p e s calls,
  128 < bb_len (be_remaining e) ->
  (N.of_nat (bb_len (be_remaining e) + list_sum (map brings calls)) < 2 ^ 63)%N ->
  let r := enc_anyway wr p (e, s) calls in
  snd (fst r) = s
  /\ 128 < bb_len (be_remaining (fst (fst r)))
  /\ (exists o, bb_offsets (be_remaining (fst (fst r))) = bb_offsets (be_remaining e) ++ o)
  /\ Forall2 (fun c o => c = Flush -> forall x, o <> Ret x) calls (snd r).
Proof.
  intros S wr p e s calls. revert e s. induction calls as [|c calls IH]; intros e s M L; cbn [enc_anyway fst snd].
  { split; [reflexivity|]. split; [exact M|]. split; [exists []; symmetry; apply app_nil_r|constructor]. }
  cbn [map list_sum fold_right] in L. fold (list_sum (map brings calls)) in L.
  assert (K : exists o, snd (fst (enc_step wr p (e, s) c)) = s /\ bb_offsets (be_remaining (fst (fst (enc_step wr p (e, s) c)))) = bb_offsets (be_remaining e) ++ o
              /\ length o <= brings c /\ (c = Flush -> forall x, snd (enc_step wr p (e, s) c) <> Ret x)).
  { destruct c as [buf|]; cbn [enc_step brings fst snd] in *.
    - unfold be_encode_at. destruct (Nat.ltb_spec 0 (bb_len (be_remaining e))); [|lia].
      destruct (sub64 p _ _) as [want|k|]; cbn [pure fst snd]; [|exists []; rewrite app_nil_r; repeat split; try discriminate; cbn; lia..].
      destruct (be_chunk p buf 0 want) as [ch|k|] eqn:EC; cbn [pure fst snd]; [|exists []; rewrite app_nil_r; repeat split; try discriminate; cbn; lia..].
      apply chunk_le in EC. destruct EC as [C1 C2]. cbn zeta.
      destruct (bb_from_grew p (be_remaining e) buf (bc_start ch) (bc_end ch) 0) as (_ & [o O] & _).
      pose proof (from_len p (be_remaining e) buf (bc_start ch) (bc_end ch) 0) as FL.
      set (r := bb_append_from_at p (be_remaining e) buf (bc_start ch) (bc_end ch) 0) in *.
      assert (LO : length o <= length (bb_offsets buf)) by (rewrite O, app_length in FL; lia).
      exists o. destruct (snd r) as [vp|k|]; cbn [pure fst snd be_set_remaining be_remaining]; [|repeat split; try discriminate; assumption..].
      destruct (_ <? _)%N; cbn [fst snd be_remaining]; [repeat split; try discriminate; assumption|].
      destruct (stuck_remaining wr p (be_set_remaining e (fst r)) s) as [F NR]; cbn [be_set_remaining be_remaining].
      + unfold bb_len in *. lia.
      + unfold bb_len in *. rewrite O, app_length. lia.
      + unfold be_set_remaining in *. rewrite F.
        destruct (snd (be_write_remaining_at wr p _ s)) as [x|k|]; [destruct (NR x eq_refl)|..]; cbn [pure fst snd be_remaining]; repeat split; try discriminate; assumption.
    - exists []. rewrite app_nil_r. unfold be_flush_at. destruct (Nat.ltb_spec 0 (bb_len (be_remaining e))); [|lia]. cbn zeta.
      destruct (stuck_remaining wr p e s) as [F NR]; [exact M|lia|]. rewrite F.
      destruct (snd (be_write_remaining_at wr p e s)) as [x|k|]; [destruct (NR x eq_refl)|..]; cbn [pure fst snd]; repeat split; try discriminate; cbn; lia. }
  destruct K as (o & K1 & K2 & K3 & K4). destruct (enc_step wr p (e, s) c) as [[e1 s1] out]. cbn [fst snd] in *. subst s1.
  assert (BL : bb_len (be_remaining e1) = bb_len (be_remaining e) + length o) by (unfold bb_len in *; rewrite K2, app_length; lia).
  destruct (IH e1 s) as (I1 & I2 & [o' I3] & I4); [lia|rewrite BL; lia|].
  split; [exact I1|]. split; [exact I2|]. split; [exists (o ++ o'); rewrite I3, K2, app_assoc; reflexivity|]. constructor; assumption.
Qed.
Print Assumptions C102_stuck_partial.

(** * Nothing is lost or changed *)

Definition item_values (it : bin_item) : list (list N) := somes (it_rows it).

(** How many rows the encoder counts for these blocks. *)
Definition counts (items : list bin_item) : N := N.of_nat (list_sum (map it_count items)).

(** The blocks, each with the number of the last row counted. *)
Fixpoint numbered (nl : bool) (rows : N) (items : list bin_item) : list (N * list N) :=
  match items with
  | [] => []
  | it :: rest => ((rows + N.of_nat (it_count it) - 1)%N, bin_block nl (it_rows it) (it_extra it)) :: numbered nl (rows + N.of_nat (it_count it)) rest
  end.

(** At least the rows in the block are counted for it, and exactly these without nulls. *)
Definition fairly (nl : bool) (it : bin_item) : Prop := length (it_rows it) <= it_count it /\ (nl = false -> it_count it = length (it_rows it)).

Lemma numbered_app nl a : forall rows b, numbered nl rows (a ++ b) = numbered nl rows a ++ numbered nl (rows + counts a) b.
Proof.
  unfold counts. induction a as [|it a IH]; intros rows b; cbn [app numbered map list_sum fold_right]; [rewrite N.add_0_r; reflexivity|]. rewrite IH. cbn [app]. do 2 f_equal. f_equal.
  fold (list_sum (map it_count a)). lia.
Qed.

Lemma counts_cons it items : counts (it :: items) = (N.of_nat (it_count it) + counts items)%N.
Proof. unfold counts. cbn [map list_sum fold_right]. fold (list_sum (map it_count items)). lia. Qed.

Lemma counts_app a b : counts (a ++ b) = (counts a + counts b)%N.
Proof. unfold counts. rewrite map_app, list_sum_app. lia. Qed.

Lemma uncaught_pair {St A} (x : caught St A) a b : uncaught pair x = Ret (a, b) -> x = (a, Ret b).
Proof. destruct x as [st [y|k|]]; cbn; [intros [= <- <-]; reflexivity|discriminate..]. Qed.

Lemma uncaught_known {E S A} (x : caught (E * S) A) a b c : uncaught known x = Ret (a, b, c) -> x = ((a, b), Ret c).
Proof. destruct x as [[e s] [y|k|]]; cbn; [intros [= <- <- <-]; reflexivity|discriminate..]. Qed.

Lemma uncaught_panic {St A B} (f : St -> A -> B) (x : caught St A) k : uncaught f x = Panic k -> snd x = Panic k.
Proof. destruct x as [st [y|j|]]; cbn; [discriminate|intros [= <-]; reflexivity|discriminate]. Qed.

Lemma inv_same B nl e e' past R rows : be_inv B nl e past R rows -> be_remaining e' = be_remaining e -> be_min e' = be_min e -> be_rows e' = be_rows e ->
  be_inv B nl e' past R rows.
Proof. unfold be_inv. intros H -> -> ->. exact H. Qed.

Lemma write_panics {S} (wr : sink_fn S) p e buf c pos s k : snd (be_write_at wr p e buf c pos s) = Panic k ->
  let x := fst (be_write_at wr p e buf c pos s) in
  snd x = s /\ be_remaining (fst x) = be_remaining e /\ be_min (fst x) = be_min e /\ be_rows (fst x) = be_rows e.
Proof.
  unfold be_write_at. destruct (encode_binary_buffer _ _ _ _ _) as [[[enc rle] [n lv]]|k'|]; cbn [pure fst snd]; [|auto..].
  destruct (be_add_rows (be_rows e) n) as [rows|k'|] eqn:EA; cbn [pure fst snd]; [|auto..].
  destruct (sub32 p rows 1) as [id|k'|] eqn:ES; cbn [pure fst snd be_remaining be_min be_rows]; [discriminate| |].
  - intros _. repeat split. apply badd_rows in EA. destruct EA as [EA _]. unfold sub32, usub in ES. destruct (N.leb_spec 1 rows); [discriminate|]. lia.
  - intros [=].
Qed.

Lemma block_at p B nl e past R rows buf items bits s k extra w vp st cnt ex :
  be_inv B nl e past R rows ->
  bb_data buf = concat items -> bb_offsets buf = running_offsets 0 items -> (N.of_nat (cbytes items) <= u32_max)%N ->
  match bb_validity buf with
  | Some bm => nl = true /\ reads_as bm bits /\ valid_window bits vp k (validity_of w)
               /\ (N.of_nat (length w) <= 2 ^ 32)%N /\ cnt = vp + length w
  | None => nl = false /\ cnt = k end ->
  1 <= k -> (N.of_nat k < 2 ^ 63)%N -> s + k + extra <= length items ->
  somes w = firstn k (skipn s items) -> ex = concat (firstn extra (skipn k (skipn s items))) ->
  let from := N.of_nat (cbytes (firstn s items)) in
  let size := N.of_nat (cbytes (firstn (k + extra) (skipn s items))) in
  let c := mk_bchunk s (s + k) from (from + size) size (N.of_nat k) in
  exists e' rows', be_inv B nl e' past R rows'
    /\ (rows' = (rows + N.of_nat cnt)%N /\ be_write_at collect p e buf c vp st = ((e', st ++ [((rows + N.of_nat cnt - 1)%N, bin_block nl w ex)]), Ret (Ok (if nl then cnt else 0)))
        \/ rows' = rows /\ exists j, be_write_at collect p e buf c vp st = ((e', st), Panic j)).
Proof.
  intros HI HD HO HL HV Hk Hk63 Hs Hw Hex from size c.
  pose proof (be_write_block collect p B nl e past R rows buf items bits s k extra w vp st cnt ex HI HD HO HL HV Hk Hk63 Hs Hw Hex) as PW.
  cbn zeta in PW. fold from size c in PW.
  assert (PAN : forall j, be_write collect p e buf c vp st = Panic j -> exists e' rows', be_inv B nl e' past R rows'
    /\ (rows' = (rows + N.of_nat cnt)%N /\ be_write_at collect p e buf c vp st = ((e', st ++ [((rows + N.of_nat cnt - 1)%N, bin_block nl w ex)]), Ret (Ok (if nl then cnt else 0))) \/ rows' = rows /\ exists j, be_write_at collect p e buf c vp st = ((e', st), Panic j))).
  { intros j E. rewrite be_write_same in E. apply uncaught_panic in E. destruct (write_panics _ _ _ _ _ _ _ _ E) as (W1 & W2 & W3 & W4). cbn zeta in *.
    destruct (be_write_at collect p e buf c vp st) as [[e1 s1] out]. cbn [fst snd] in *. subst. exists e1, rows. split; [apply (inv_same _ _ e); assumption|]. right. split; [reflexivity|]. exists j. reflexivity. }
  cbn [bemits it_rows it_count it_extra] in PW. destruct (128 <? num_vals w); [exact (PAN _ PW)|].
  destruct (be_add_rows rows cnt) as [rows'|j|] eqn:EA; cbn [bind] in PW; [|exact (PAN _ PW)|contradiction].
  cbn [collect] in PW. destruct PW as (e' & E & I' & _). rewrite be_write_same in E. apply uncaught_known in E.
  apply badd_rows in EA. destruct EA as [EA _]. subst rows'. exists e', (rows + N.of_nat cnt)%N. split; [exact I'|]. left. split; [reflexivity|]. exact E.
Qed.

Lemma remaining_at p B nl e past R rows st :
  be_inv B nl e past R rows -> R <> [] -> (N.of_nat (bytes_of R) <= u32_max)%N -> (N.of_nat (length R) <= 2 ^ 32)%N ->
  exists e' rows', be_inv B nl e' past R rows'
    /\ (rows' = (rows + N.of_nat (length (seen nl past R)))%N /\ (exists v, be_write_remaining_at collect p e st = ((e', st ++ [((rows + N.of_nat (length (seen nl past R)) - 1)%N, bin_block nl (seen nl past R) [])]), Ret (Ok v)))
        \/ rows' = rows /\ exists j, be_write_remaining_at collect p e st = ((e', st), Panic j)).
Proof.
  intros HI HN HL HR. pose proof (be_write_remaining_ok collect p B nl e past R rows st HI HN HL HR) as PW. cbn zeta in PW.
  assert (PAN : forall j, be_write_remaining collect p e st = Panic j -> exists e' rows', be_inv B nl e' past R rows'
    /\ (rows' = (rows + N.of_nat (length (seen nl past R)))%N /\ (exists v, be_write_remaining_at collect p e st = ((e', st ++ [((rows + N.of_nat (length (seen nl past R)) - 1)%N, bin_block nl (seen nl past R) [])]), Ret (Ok v))) \/ rows' = rows /\ exists j, be_write_remaining_at collect p e st = ((e', st), Panic j))).
  { intros j E. rewrite be_write_remaining_same in E. apply uncaught_panic in E. unfold be_write_remaining_at in *. cbn zeta in *.
    destruct (idx _ _) as [o|k|]; cbn [pure] in *; [|exists e, rows; split; [exact HI|right; split; [reflexivity|]; exists j; cbn [snd] in E; rewrite E; reflexivity]..].
    destruct (write_panics _ _ _ _ _ _ _ _ E) as (W1 & W2 & W3 & W4). cbn zeta in *.
    destruct (be_write_at collect p e _ _ _ st) as [[e1 s1] out]. cbn [fst snd] in *. subst. exists e1, rows. split; [apply (inv_same _ _ e); assumption|]. right. split; [reflexivity|]. exists j. reflexivity. }
  cbn [bemits it_rows it_count it_extra] in PW. destruct (128 <? num_vals (seen nl past R)); [exact (PAN _ PW)|].
  destruct (be_add_rows rows _) as [rows'|j|] eqn:EA; cbn [bind] in PW; [|exact (PAN _ PW)|contradiction].
  cbn [collect] in PW. destruct PW as (e' & v & E & I' & _). rewrite be_write_remaining_same in E. apply uncaught_known in E.
  apply badd_rows in EA. destruct EA as [EA _]. subst rows'. eexists e', _. split; [exact I'|]. left. split; [reflexivity|]. exists v. exact E.
Qed.

(** What a call does with the rows [b] of a buffer when [R] is held back: blocks of
    [items] are handed over, [R'] is held back then, and together they have the
    values of [R] and a first part of those of [b]; all of them if the call returns. *)
Definition moved (nl : bool) (R b : list row) (items : list bin_item) (R' : list row) (out : outcome (result unit)) : Prop :=
  exists t more, somes b = t ++ more
    /\ concat (map item_values items) ++ somes R' = somes R ++ t
    /\ length R' <= length R + length b /\ Forall (fairly nl) items
    /\ (out = Ret (Ok tt) /\ more = [] \/ exists k, out = Panic k).

Lemma loop_values p B nl past : (0 < B <= u32_max)%N ->
  forall fuel rest before e rows buf vp st,
  be_inv B nl e past [] rows -> bb_holds buf nl (before ++ rest) ->
  (N.of_nat (bytes_of (before ++ rest)) <= u32_max)%N ->
  (N.of_nat (length before + length rest) <= 2 ^ 32 - 2)%N ->
  (nl = true -> vp = length before) -> num_vals rest < fuel ->
  exists items R' rows' e' out,
    be_loop_at collect p fuel e buf (num_vals before) vp st = ((e', st ++ numbered nl rows items), out)
    /\ rows' = (rows + counts items)%N /\ be_inv B nl e' past R' rows' /\ moved nl [] rest items R' out.
Proof.
  intros HB. change (2 ^ 32 - 2)%N with 4294967294%N.
  induction fuel as [|fuel IH]; intros rest before e rows buf vp s HI HH HL HRows HV Hf2; [lia|].
  cbn [be_loop_at].
  assert (STOP : forall out, (exists k, out = Panic k) -> exists items R' rows' e' out',
    ((e, s), out) = ((e', s ++ numbered nl rows items), out') /\ rows' = (rows + counts items)%N /\ be_inv B nl e' past R' rows' /\ moved nl [] rest items R' out').
  { intros out P. exists [], [], rows, e, out. cbn [numbered]. rewrite app_nil_r. split; [reflexivity|]. split; [unfold counts; cbn; lia|]. split; [exact HI|].
    exists [], (somes rest). split; [reflexivity|]. split; [reflexivity|]. split; [cbn; lia|]. split; [constructor|right; exact P]. }
  pose proof HH as (HD & HO & HS).
  set (items := somes (before ++ rest)) in *.
  assert (LI : length items = num_vals before + num_vals rest) by (unfold items; fold (num_vals (before ++ rest)); apply num_vals_app).
  rewrite HO, running_length. destruct (Nat.ltb_spec (num_vals before) (Datatypes.S (length items))); [|lia].
  fold (bytes_of (before ++ rest)) in HL. unfold bytes_of in HL. fold items in HL. fold (cbytes items) in HL.
  assert (HM : be_min e = B) by apply HI. rewrite HM.
  rewrite (be_chunk_ok p buf items) by (try lia; assumption).
  assert (ESk : skipn (num_vals before) items = somes rest) by apply skipn_somes_app.
  assert (EFi : firstn (num_vals before) items = somes before) by apply firstn_somes_app.
  rewrite ESk. pose proof (somes_length_le rest) as SL. pose proof (somes_length_le before) as SLb. fold (num_vals rest) in SL.
  fold (num_vals before) in SLb.
  destruct (fill B (somes rest)) as [q|] eqn:EF; cbn zeta.
  - pose proof (fill_some _ _ _ EF) as (F1 & F2 & F3). pose proof (fill_pos _ _ _ EF ltac:(lia)) as F4. fold (num_vals rest) in F1.
    destruct (Nat.leb_spec q (num_vals before)) as [Q|Q].
    + (* stuck *)
      unfold sub64, usub.
      assert (PA : forall len, exists k, be_write_at collect p e buf (mk_bchunk (num_vals before) q (N.of_nat (cbytes (firstn (num_vals before) items)))
            (N.of_nat (cbytes (firstn (num_vals before) items)) + N.of_nat (cbytes (firstn q (somes rest))))
            (N.of_nat (cbytes (firstn q (somes rest)))) len) vp s = ((e, s), Panic k)).
      { intros len. unfold be_write_at. rewrite <- ESk.
        rewrite (encode_binary_panics p buf items (num_vals before) q q len vp (be_bitmap e) HD HO HL); [eexists; reflexivity|left; lia|lia|].
        replace (q - num_vals before) with 0 by lia. reflexivity. }
      destruct (N.leb_spec (N.of_nat (num_vals before)) (N.of_nat q)) as [X|X]; [|destruct p; [cbn [bind pure]; apply STOP; eauto|]].
      * cbn [bind pure bc_size]. destruct (N.ltb_spec (N.of_nat (cbytes (firstn q (somes rest)))) B); [lia|]. cbn zeta.
        destruct (PA (N.of_nat q - N.of_nat (num_vals before))%N) as [k ->]. cbn [fst snd pure]. apply STOP. eauto.
      * cbn [bind pure bc_size]. destruct (N.ltb_spec (N.of_nat (cbytes (firstn q (somes rest)))) B); [lia|]. cbn zeta.
        match goal with |- context [mk_bchunk (num_vals before) q _ _ _ ?l] => destruct (PA l) as [k ->] end. cbn [fst snd pure]. apply STOP. eauto.
    + (* a block *)
      rewrite sub64_ok by lia. cbn [bind pure bc_size bc_end]. destruct (N.ltb_spec (N.of_nat (cbytes (firstn q (somes rest)))) B); [lia|]. cbn zeta.
      set (k := q - num_vals before). set (w := take_vals k rest). set (rest' := drop_vals k rest).
      assert (HW : num_vals w = k) by (unfold w; rewrite num_take; lia).
      assert (HWE : ends_some w) by (apply take_ends; lia).
      assert (ER : rest = w ++ rest') by (symmetry; apply take_drop).
      assert (ELen : length rest = length w + length rest') by (rewrite ER at 1; apply app_length).
      set (cnt := if nl then length before + length w else length w).
      set (ex := concat (firstn (num_vals before) (skipn k (somes rest)))).
      pose proof (block_at p B nl e past [] rows buf items (validity_of (before ++ rest)) (num_vals before) k (num_vals before)
        w vp s cnt ex HI HD HO HL) as PW.
      assert (HVX : match bb_validity buf with
        | Some bm => nl = true /\ reads_as bm (validity_of (before ++ rest)) /\ valid_window (validity_of (before ++ rest)) vp k (validity_of w)
               /\ (N.of_nat (length w) <= 2 ^ 32)%N /\ cnt = vp + length w
        | None => nl = false /\ cnt = k end).
      { destruct (bb_validity buf) as [bm|]; cbn [validity_shows] in HS.
        - destruct HS as [-> HS]. split; [reflexivity|]. split; [exact HS|]. rewrite (HV eq_refl). split.
          + pose proof (row_window before w rest' HWE) as RW. fold (num_vals w) in RW. rewrite HW, <- ER in RW. exact RW.
          + split; [change (2 ^ 32)%N with 4294967296%N; lia|reflexivity].
        - destruct HS as [-> HS]. split; [reflexivity|]. unfold cnt. rewrite <- HW. symmetry. apply allowed_false_num. right.
          apply Forall_app in HS. destruct HS as [_ HS]. rewrite ER in HS. apply Forall_app in HS. tauto. }
      specialize (PW HVX ltac:(lia)). change (2 ^ 63)%N with 9223372036854775808%N in PW.
      specialize (PW ltac:(lia) ltac:(lia)). rewrite ESk in PW.
      specialize (PW (take_somes k rest) eq_refl). cbn zeta in PW.
      replace (num_vals before + k) with q in PW by lia. replace (k + num_vals before) with q in PW by lia.
      replace (N.of_nat q - N.of_nat (num_vals before))%N with (N.of_nat k) by lia.
      destruct PW as (e1 & rows1 & I1 & [[RE PW]|[RE [j PW]]]); subst rows1.
      * rewrite PW. cbn [fst snd pure].
        specialize (IH rest' (before ++ w) e1 (rows + N.of_nat cnt)%N buf (if nl then cnt else 0) (s ++ [((rows + N.of_nat cnt - 1)%N, bin_block nl w ex)]) I1).
        rewrite <- app_assoc, <- ER in IH. specialize (IH HH HL).
        rewrite app_length, num_vals_app, HW in IH. specialize (IH ltac:(lia)).
        assert (HV' : nl = true -> (if nl then cnt else 0) = length before + length w) by (unfold cnt; intros ->; reflexivity).
        specialize (IH HV'). unfold rest' in IH. rewrite num_drop in IH. fold rest' in IH. specialize (IH ltac:(lia)).
        replace (num_vals before + k) with q in IH by lia.
        destruct IH as (its & R' & rows' & e' & out & E & RE & I' & (t & more & M1 & M2 & M3 & M5 & M4)).
        exists (mk_item cnt w ex :: its), R', rows', e', out. rewrite E. split.
        { cbn [numbered it_count it_rows it_extra]. rewrite <- app_assoc. reflexivity. }
        split; [rewrite counts_cons; cbn [it_count]; lia|]. split; [exact I'|]. exists (somes w ++ t), more.
        split; [rewrite ER, somes_app, M1, app_assoc; reflexivity|]. split; [cbn [map concat]; rewrite <- app_assoc, M2; reflexivity|]. split; [cbn [length] in *; lia|]. split; [|exact M4].
        constructor; [|exact M5]. split; cbn [it_rows it_count]; unfold cnt; [destruct nl; lia|intros ->; reflexivity].
      * rewrite PW. cbn [fst snd pure]. exists [], [], rows, e1, (Panic j). cbn [numbered]. rewrite app_nil_r. split; [reflexivity|]. split; [unfold counts; cbn; lia|]. split; [exact I1|].
        exists [], (somes rest). split; [reflexivity|]. split; [reflexivity|]. split; [cbn; lia|]. split; [constructor|right; eauto].
  - (* the rest is held back *)
    apply fill_none in EF. cbn [bind pure bc_size bc_start bc_end]. destruct (N.ltb_spec (N.of_nat (cbytes (somes rest))) B); [|lia].
    pose proof (be_inv_len _ _ _ _ _ _ HI) as (HL0 & HN0 & HLa & HBy).
    assert (ER : rest = trim rest ++ drop_vals (num_vals rest) rest) by (symmetry; apply take_drop).
    assert (HA : rows_allowed nl (trim rest)).
    { apply bb_holds_allowed in HH. apply allowed_app in HH. apply allowed_take. tauto. }
    assert (ET : somes (trim rest) = somes rest) by (unfold trim; rewrite take_somes; apply firstn_all).
    pose proof (bb_append_from_eq p (be_remaining e) buf nl before (trim rest) (drop_vals (num_vals rest) rest)) as PA.
    rewrite <- ER in PA. specialize (PA HH HN0 (trim_ends rest)).
    rewrite HD, HBy in PA. fold items in PA. fold (cbytes items) in PA. specialize (PA HL).
    rewrite HBy in HLa. specialize (PA HLa). rewrite ET in PA. fold (cbytes (somes rest)) in PA. change (bytes_of []) with 0 in PA.
    specialize (PA ltac:(lia)). rewrite app_length in PA. specialize (PA ltac:(unfold u64_lim; lia)).
    fold (num_vals before) (num_vals rest) in PA. rewrite LI.
    assert (EQ : bb_append_from p (be_remaining e) buf (num_vals before) (num_vals before + num_vals rest) vp
               = bb_append_from p (be_remaining e) buf (num_vals before) (num_vals before + num_vals rest) (length before)).
    { destruct nl; [rewrite HV by reflexivity; reflexivity|]. eapply bvalidity_pos_irrelevant; eauto. }
    destruct (be_inv_extend B nl e past [] rows (trim rest) HI HA (trim_ends rest)) as (b & EB & I').
    { unfold bytes_of at 2. rewrite ET. fold (cbytes (somes rest)). change (bytes_of []) with 0. lia. }
    rewrite EB, bind_ret in PA. rewrite PA, bb_append_from_same in EQ. apply uncaught_pair in EQ. rewrite EQ. cbn [fst snd pure]. cbn zeta.
    exists [], (trim rest), rows, (be_set_remaining e b), (Ret (Ok tt)). cbn [numbered]. rewrite app_nil_r. split; [reflexivity|]. split; [unfold counts; cbn; lia|]. split; [exact I'|].
    exists (somes rest), []. rewrite app_nil_r. split; [reflexivity|]. split; [exact ET|]. split; [|split; [constructor|left; auto]].
    apply (f_equal (@length _)) in ER. rewrite app_length in ER. cbn [length]. lia.
Qed.

Lemma encode_values p B nl past fuel e R rows buf b st : (0 < B)%N ->
  be_inv B nl e past R rows -> bb_holds buf nl b ->
  (B + N.of_nat (bytes_of R + bytes_of b) <= u32_max)%N -> (N.of_nat (length R + length b) <= 2 ^ 32 - 2)%N -> num_vals b < fuel ->
  exists items past' R' rows' e' out,
    be_encode_at collect p fuel e buf st = ((e', st ++ numbered nl rows items), out)
    /\ rows' = (rows + counts items)%N /\ be_inv B nl e' past' R' rows' /\ moved nl R b items R' out.
Proof.
  intros HB HI HH HL HRows Hf. change (2 ^ 32 - 2)%N with 4294967294%N in HRows. unfold be_encode_at.
  pose proof (be_inv_len _ _ _ _ _ _ HI) as (HL0 & HN0 & HLa & HBy). rewrite HL0.
  destruct (list_eq_dec (fun x y : row => ltac:(decide equality; apply list_eq_dec; apply N.eq_dec)) R []) as [->|HN].
  - change (0 <? num_vals (@nil row)) with false. cbn iota.
    pose proof (loop_values p B nl past ltac:(unfold u32_max in *; lia) fuel b [] e rows buf 0 st HI HH) as PL.
    change (2 ^ 32 - 2)%N with 4294967294%N in PL. cbn [app length] in PL.
    specialize (PL ltac:(lia) ltac:(lia) (fun _ => eq_refl) ltac:(lia)).
    change (num_vals (@nil row)) with 0 in PL. destruct PL as (items & R' & rows' & e' & out & E & RE & I' & M). exists items, past, R', rows', e', out. auto.
  - assert (HE : ends_some R) by apply HI.
    pose proof (nonempty_num R HE HN) as HP. destruct (Nat.ltb_spec 0 (num_vals R)); [|lia].
    assert (HM : be_min e = B) by apply HI. rewrite HM, HBy.
    assert (STOP : forall out, (exists k, out = Panic k) -> exists items past' R' rows' e' out',
      ((e, st), out) = ((e', st ++ numbered nl rows items), out') /\ rows' = (rows + counts items)%N /\ be_inv B nl e' past' R' rows' /\ moved nl R b items R' out').
    { intros out P. exists [], past, R, rows, e, out. cbn [numbered]. rewrite app_nil_r. split; [reflexivity|]. split; [unfold counts; cbn; lia|]. split; [exact HI|].
      exists [], (somes b). cbn [map concat app]. rewrite app_nil_r. split; [reflexivity|]. split; [reflexivity|]. split; [lia|]. split; [constructor|right; exact P]. }
    pose proof HH as (HD & HO & HS).
    assert (HCB : (N.of_nat (cbytes (somes b)) <= u32_max)%N) by (change (cbytes (somes b)) with (bytes_of b); lia).
    assert (HAb : rows_allowed nl b) by (apply bb_holds_allowed in HH; exact HH).
    destruct (sub64 p B (N.of_nat (bytes_of R))) as [want|k|] eqn:EW; cbn [pure]; [|apply STOP; eauto|].
    2:{ unfold sub64, usub in EW. destruct (_ <=? _)%N; [discriminate|destruct p; discriminate]. }
    assert (CH : exists c k, be_chunk p buf 0 want = Ret c /\ bc_start c = 0 /\ bc_end c = k /\ k <= num_vals b
                 /\ ((N.of_nat (bytes_of R + bytes_of (take_vals k b)) < B)%N -> k = num_vals b)
                 /\ (k = num_vals b \/ 0 < k \/ (B <= N.of_nat (bytes_of R))%N)).
    { rewrite (be_chunk_ok p buf (somes b) 0 _ HO ltac:(lia) HCB). cbn [skipn firstn]. cbn zeta.
      destruct (fill want (somes b)) as [k|] eqn:EF.
      - pose proof (fill_some _ _ _ EF) as (F1 & F2 & _). fold (num_vals b) in F1. rewrite sub64_ok by lia. cbn [bind]. do 2 eexists. split; [reflexivity|]. cbn [bc_start bc_end].
        split; [reflexivity|]. split; [reflexivity|]. split; [lia|].
        assert (HWB : cbytes (firstn k (somes b)) = bytes_of (take_vals k b)) by (unfold bytes_of; rewrite take_somes; reflexivity). rewrite HWB in F2.
        unfold sub64, usub in EW. destruct (N.leb_spec (N.of_nat (bytes_of R)) B).
        + injection EW as <-. split; [intros X; lia|]. destruct k; [|right; left; lia]. right; right.
          change (bytes_of (take_vals 0 b)) with (cbytes (somes (take_vals 0 b))) in F2. rewrite take_somes in F2. cbn in F2. lia.
        + split; [intros X; lia|right; right; lia].
      - do 2 eexists. split; [reflexivity|]. cbn [bc_start bc_end]. repeat split; [unfold num_vals; lia|auto]. }
    destruct CH as (c & k & EC & C1 & C2 & F1 & F2 & _). rewrite EC. cbn [pure]. rewrite C1, C2. cbn zeta.
    set (w := take_vals k b) in *. set (b' := drop_vals k b) in *.
    assert (HW : num_vals w = k) by (unfold w; rewrite num_take; lia).
    assert (HWE : ends_some w) by (apply take_ends; lia).
    assert (ER : b = w ++ b') by (symmetry; apply take_drop).
    assert (HBB : bytes_of b = bytes_of w + bytes_of b') by (rewrite ER at 1; apply bytes_app).
    assert (LBB : length b = length w + length b') by (rewrite ER at 1; apply app_length).
    assert (HWA : rows_allowed nl w) by (apply allowed_take; exact HAb).
    pose proof (bb_append_from_eq p (be_remaining e) buf nl [] w b') as PA. cbn [app] in PA. rewrite <- ER in PA.
    specialize (PA HH HN0 HWE). rewrite HD in PA. fold (cbytes (somes b)) in PA. specialize (PA HCB HLa).
    rewrite HBy in PA. fold (bytes_of w) in PA. specialize (PA ltac:(lia) ltac:(unfold u64_lim; lia)).
    cbn [somes length Nat.add] in PA. fold (num_vals w) in PA. rewrite HW in PA.
    destruct (be_inv_extend B nl e past R rows w HI HWA HWE) as (rb & ERB & I'); [lia|]. rewrite ERB, bind_ret, bb_append_from_same in PA. apply uncaught_pair in PA.
    rewrite PA. cbn [fst snd pure].
    pose proof (be_inv_len _ _ _ _ _ _ I') as (HL1 & HN1 & HLa1 & HBy1). rewrite HBy1, bytes_app. cbn [be_min be_set_remaining]. rewrite HM.
    destruct (N.ltb_spec (N.of_nat (bytes_of R + bytes_of w)) B) as [X|X].
    + specialize (F2 X). exists [], past, (R ++ w), rows, (be_set_remaining e rb), (Ret (Ok tt)). cbn [numbered]. rewrite app_nil_r. split; [reflexivity|]. split; [unfold counts; cbn; lia|]. split; [exact I'|].
      exists (somes w), []. rewrite app_nil_r. split; [unfold w; rewrite F2, take_somes; symmetry; apply firstn_all|].
      split; [cbn [map concat app]; apply somes_app|]. split; [rewrite app_length; lia|]. split; [constructor|left; auto].
    + assert (HNN : R ++ w <> []) by (destruct R; [congruence|discriminate]).
      pose proof (remaining_at p B nl (be_set_remaining e rb) past (R ++ w) rows st I' HNN) as PW.
      change (2 ^ 32)%N with 4294967296%N in PW. rewrite bytes_app, app_length in PW. specialize (PW ltac:(lia) ltac:(lia)).
      destruct PW as (e1 & rows1 & I1 & [[RE [v PW]]|[RE [j PW]]]); subst rows1.
      * rewrite PW. cbn [fst snd pure].
        pose proof (loop_values p B nl ((R ++ w) :: past) ltac:(unfold u32_max in *; lia) fuel b' w
             _ _ buf (if nl then length w else num_vals w) (st ++ [((rows + N.of_nat (length (seen nl past (R ++ w))) - 1)%N, bin_block nl (seen nl past (R ++ w)) [])]) (be_inv_clear _ _ _ _ _ _ I1)) as PL.
        change (2 ^ 32 - 2)%N with 4294967294%N in PL. rewrite <- ER in PL.
        assert (NB : num_vals b' = num_vals b - k) by apply num_drop.
        specialize (PL HH ltac:(lia) ltac:(lia)).
        assert (HVP : nl = true -> (if nl then length w else num_vals w) = length w) by (intros ->; reflexivity).
        specialize (PL HVP ltac:(lia)). rewrite HW in PL.
        destruct PL as (items & R' & rows' & e' & out & E & RE & I2 & (t & more & M1 & M2 & M3 & M5 & M4)).
        exists (mk_item (length (seen nl past (R ++ w))) (seen nl past (R ++ w)) [] :: items), ((R ++ w) :: past), R', rows', e', out.
        split; [|split; [rewrite counts_cons; cbn [it_count]; lia|split; [exact I2|]]].
        { rewrite E. cbn [numbered it_count it_rows it_extra]. rewrite <- app_assoc. reflexivity. }
        assert (HE2 : ends_some (R ++ w)) by apply I'.
        destruct (seen_spec nl past (R ++ w) HE2) as (S1 & _ & _ & _).
        exists (somes w ++ t), more. split; [rewrite ER, somes_app, M1, app_assoc; reflexivity|].
        split; [cbn [map concat]; unfold item_values at 1; cbn [it_rows]; rewrite S1, somes_app, <- !app_assoc, M2; reflexivity|]. split; [cbn [length] in *; lia|]. split; [|exact M4].
        constructor; [|exact M5]. split; cbn [it_rows it_count]; [lia|reflexivity].
      * rewrite PW. cbn [fst snd pure].
        exists [], past, (R ++ w), rows, e1, (Panic j). cbn [numbered]. rewrite app_nil_r. split; [reflexivity|]. split; [unfold counts; cbn; lia|]. split; [exact I1|].
        exists (somes w), (somes b'). split; [rewrite ER at 1; apply somes_app|]. split; [cbn [map concat app]; apply somes_app|]. split; [rewrite app_length; lia|]. split; [constructor|right; eauto].
Qed.

(** How the values of the buffers were dealt with: of each call a first part was
    taken, and everything if it returned. *)
Inductive taken : list (list row) -> list (outcome (result unit)) -> list (list N) -> Prop :=
| taken_nil : taken [] [] []
| taken_cons b out t more bs outs ts : somes b = t ++ more -> (out = Ret (Ok tt) /\ more = [] \/ exists k, out = Panic k) ->
    taken bs outs ts -> taken (b :: bs) (out :: outs) (t ++ ts).

Definition all_bytes (bs : list (list row)) : nat := list_sum (map bytes_of bs).
Definition all_rows (bs : list (list row)) : nat := list_sum (map (@length row) bs).

(** C102, what holds: whatever panics, no value is lost, changed, written twice or
    out of order inside the encoder.  After any buffers, panics caught, the blocks
    handed over and the values held back are, in order, the values of the calls
    that returned and a first part of the values of every call that panicked.  The
    rows of the blocks are counted without regard to the panics: a block has the
    number of the last row counted for it or a block before it. *)
Theorem C102_values_partial : forall p B nullable (bufs : list bin_buf) (bs : list (list row)),
  (0 < B)%N -> Forall2 (fun buf b => bb_holds buf nullable b) bufs bs ->
  (B + N.of_nat (all_bytes bs) <= 4294967295)%N -> (N.of_nat (all_rows bs) <= 4294967294)%N ->
  let r := enc_anyway collect p (be_new B nullable, []) (map Encode bufs) in
  exists items held vs,
    snd (fst r) = numbered nullable 0 items /\ Forall (fairly nullable) items
    /\ bb_data (be_remaining (fst (fst r))) = concat held
    /\ bb_offsets (be_remaining (fst (fst r))) = running_offsets 0 held
    /\ concat (map (fun it => somes (it_rows it)) items) ++ held = vs
    /\ taken bs (snd r) vs.
Proof.
  intros p B nl bufs bs HB HF. change 4294967295%N with u32_max.
  assert (GEN : forall e past R rows st, be_inv B nl e past R rows ->
    (B + N.of_nat (bytes_of R + all_bytes bs) <= u32_max)%N -> (N.of_nat (length R + all_rows bs) <= 4294967294)%N ->
    let r := enc_anyway collect p (e, st) (map Encode bufs) in
    exists items held vs,
      snd (fst r) = st ++ numbered nl rows items /\ Forall (fairly nl) items /\ bb_data (be_remaining (fst (fst r))) = concat held
      /\ bb_offsets (be_remaining (fst (fst r))) = running_offsets 0 held
      /\ concat (map item_values items) ++ held = somes R ++ vs /\ taken bs (snd r) vs).
  { induction HF as [|buf b bufs bs HH HF IH]; intros e past R rows st HI L1 L2; cbn [map enc_anyway fst snd].
    - exists [], (somes R), []. cbn [map concat app numbered]. rewrite !app_nil_r. destruct HI as (D & O & _). split; [reflexivity|]. split; [constructor|]. split; [exact D|]. split; [exact O|]. split; [reflexivity|constructor].
    - cbn [all_bytes all_rows map list_sum fold_right] in L1, L2. fold (list_sum (map bytes_of bs)) in L1. fold (list_sum (map (@length row) bs)) in L2. fold (all_bytes bs) in L1. fold (all_rows bs) in L2.
      cbn [enc_step fst snd].
      assert (FU : num_vals b < length (bb_offsets buf)) by (destruct HH as (_ & -> & _); rewrite running_length; unfold num_vals; lia).
      destruct (encode_values p B nl past (length (bb_offsets buf)) e R rows buf b st HB HI HH ltac:(lia) ltac:(change (2 ^ 32 - 2)%N with 4294967294%N; lia) FU)
        as (items & past' & R' & rows' & e' & out & E & RE & I' & (t & more & M1 & M2 & M3 & M5 & M4)).
      rewrite E. cbn [fst snd].
      assert (BR : bytes_of R' <= bytes_of R + bytes_of b).
      { apply (f_equal (fun l => length (concat l))) in M2. apply (f_equal (fun l => length (concat l))) in M1. rewrite !concat_app, !app_length in M2. rewrite concat_app, app_length in M1. unfold bytes_of. lia. }
      destruct (IH e' past' R' rows' (st ++ numbered nl rows items) I') as (its & held & vs & V1 & V6 & V2 & V3 & V4 & V5); [lia|lia|].
      exists (items ++ its), held, (t ++ vs). split; [rewrite V1, numbered_app, RE, app_assoc; reflexivity|]. split; [apply Forall_app; auto|]. split; [exact V2|]. split; [exact V3|].
      split; [rewrite map_app, concat_app, <- app_assoc, V4, app_assoc, M2, <- app_assoc; reflexivity|]. econstructor; eassumption. }
  intros L1 L2. exact (GEN (be_new B nl) [] [] 0%N [] (be_inv_new B nl) L1 L2).
Qed.
Print Assumptions C102_values_partial.

(** Two buffers, the second one cut short by a panic: its second item has no
    block, and the third call goes on as if nothing had happened. *)
Definition plain_buf (items : list (list N)) : bin_buf := items_of false (map Some items).
Definition long_item (b : N) : list N := repeat b 128.

Example C102_values_example :
  let r := enc_anyway collect Debug (be_new 128 false, []) (map Encode [plain_buf [[1%N]]; plain_buf [long_item 2; long_item 3; [4%N]]; plain_buf [[5%N]]]) in
  snd r = [Ret (Ok tt); Panic PAssert; Ret (Ok tt)]
  /\ snd (fst r) = [(1%N, bin_block false [Some [1%N]; Some (long_item 2)] [])]
  /\ bb_data (be_remaining (fst (fst r))) = [5%N].
Proof. vm_compute. repeat split. Qed.

(** * Trying again *)

Lemma write_same_end {S} (wr : sink_fn S) p e e' buf c pos s : be_rows e' = be_rows e ->
  snd (be_write_at wr p e' buf c pos s) = snd (be_write_at wr p e buf c pos s).
Proof.
  intros H. unfold be_write_at. pose proof (scratch_unused p buf c pos (be_bitmap e') (be_bitmap e)) as U.
  destruct (encode_binary_buffer p buf c pos (be_bitmap e')) as [[[a r] [n lv]]|k|], (encode_binary_buffer p buf c pos (be_bitmap e)) as [[[a' r'] [n' lv']]|k'|];
    try contradiction; cbn [pure snd]; [|subst; reflexivity|reflexivity].
  destruct U as [-> [= -> ->]]. rewrite H. destruct (be_add_rows (be_rows e) n') as [rows|k|]; cbn [pure snd]; [|reflexivity..].
  destruct (sub32 p rows 1) as [id|k|]; reflexivity.
Qed.

(** C102 for closing: if a flush panics, nothing was handed over and nothing of
    what is held back has changed, and every further flush panics the same way. *)
Theorem C102_again_partial : forall (S : Type) (wr : sink_fn S) p e s k n,
  snd (be_flush_at wr p e s) = Panic k ->
  let r := enc_anyway wr p (e, s) (repeat Flush n) in
  snd r = repeat (Panic k) n /\ snd (fst r) = s /\ be_remaining (fst (fst r)) = be_remaining e.
Proof.
  intros S wr p e s k n. revert e. induction n as [|n IH]; intros e H; cbn [repeat enc_anyway fst snd]; [auto|]. cbn [enc_step fst snd].
  assert (K : snd (fst (be_flush_at wr p e s)) = s /\ be_remaining (fst (fst (be_flush_at wr p e s))) = be_remaining e
              /\ be_rows (fst (fst (be_flush_at wr p e s))) = be_rows e).
  { unfold be_flush_at in *. destruct (0 <? bb_len (be_remaining e)); [|discriminate]. cbn zeta in *. unfold be_write_remaining_at in *. cbn zeta in *.
    destruct (idx _ _) as [o|j|]; cbn [pure fst snd] in *; [|auto..].
    destruct (snd (be_write_at wr p e _ _ 0 s)) as [v|j|] eqn:E; cbn [pure fst snd] in H |- *; [discriminate| |discriminate].
    destruct (write_panics _ _ _ _ _ _ _ _ E) as (W1 & W2 & W3 & W4). auto. }
  destruct K as (K1 & K2 & K3). destruct (be_flush_at wr p e s) as [[e1 s1] out] eqn:E. cbn [fst snd] in *. subst s1 out.
  destruct (IH e1) as (I1 & I2 & I3).
  - unfold be_flush_at in *. rewrite K2. destruct (0 <? bb_len (be_remaining e)); [|discriminate]. cbn zeta in *. unfold be_write_remaining_at in *. cbn zeta in *. rewrite K2.
    destruct (idx _ _) as [o|j|]; cbn [pure fst snd] in *; [|congruence..].
    rewrite (write_same_end wr p e e1) by exact K3.
    destruct (snd (be_write_at wr p e _ _ 0 s)) as [v|j|]; cbn [pure fst snd] in *; congruence.
  - rewrite I1. split; [reflexivity|]. split; [exact I2|]. rewrite I3. exact K2.
Qed.
Print Assumptions C102_again_partial.

(** * A buffer of the other kind *)

Definition plainly (buf : bin_buf) : bin_buf := mk_bin (bb_data buf) (bb_offsets buf) None.

Lemma push_plainly p buf count : forall i last offsets, bb_push_offsets_at p (plainly buf) i count last offsets = bb_push_offsets_at p buf i count last offsets.
Proof. induction count as [|count IH]; intros i last offsets; [reflexivity|]. cbn [bb_push_offsets_at]. unfold bb_item_len, plainly. cbn [bb_offsets]. fold (plainly buf).
  destruct (let* a := _ in _) as [len|k|]; cbn [pure]; [|reflexivity..]. destruct (add32 p last len) as [l|k|]; cbn [pure]; [|reflexivity..]. apply IH.
Qed.

Lemma append_other p b buf bm s e pos r : bb_validity b = None -> bb_validity buf = Some bm ->
  (exists v, bb_append_from_at p b (plainly buf) s e pos = (r, Ret v)) ->
  bb_append_from_at p b buf s e pos = (r, Panic PExpect).
Proof.
  intros VB VS [v X]. revert X.
  unfold bb_append_from_at. rewrite push_plainly. unfold plainly at 1 2 3 4. cbn [bb_offsets bb_data bb_validity]. rewrite VB, VS.
  destruct (idx (bb_offsets buf) s) as [so|k|]; cbn [pure]; [|discriminate..]. destruct (idx (bb_offsets buf) e) as [eo|k|]; cbn [pure]; [|discriminate..].
  destruct (sub64 p _ _) as [cl|k|]; cbn [pure]; [|discriminate..]. cbn zeta. destruct (snd (bb_push_offsets_at p buf s (e - s) _ _)) as [[]|k|]; cbn [pure]; [|discriminate..].
  destruct (slice (bb_data buf) _ _) as [chunk|k|]; cbn [pure]; [|discriminate..]. destruct (_ <? u32_max)%N; [|discriminate].
  cbn [validity_append_from_at fst snd]. intros [= <- _]. reflexivity.
Qed.

(** A sink that takes nothing. *)
Definition refuse : sink_fn unit := fun u _ _ => (u, Err).

Lemma write_refused p e buf c pos : forall x, snd (be_write_at refuse p e buf c pos tt) <> Ret (Ok x).
Proof.
  intros x. unfold be_write_at. destruct (encode_binary_buffer _ _ _ _ _) as [[[enc rle] [n lv]]|k|]; cbn [pure snd]; [|discriminate..].
  destruct (be_add_rows _ _) as [rows|k|]; cbn [pure snd]; [|discriminate..]. destruct (sub32 _ _ _) as [id|k|]; cbn [pure snd refuse]; discriminate.
Qed.

(** An encoder without nulls is given a buffer with nulls, whose values alone it
    would only hold back, even with a sink that takes nothing.  The call panics,
    and the values are held back all the same: what is left behind is what the
    call with the values alone leaves behind. *)
Theorem C102_other_kind_partial : forall (S : Type) (wr : sink_fn S) s p fuel e buf bm e',
  bb_validity (be_remaining e) = None -> bb_validity buf = Some bm ->
  be_encode_at refuse p fuel e (plainly buf) tt = ((e', tt), Ret (Ok tt)) ->
  be_encode_at wr p fuel e buf s = ((e', s), if (length (bb_offsets buf) =? 0) && (bb_len (be_remaining e) =? 0) then Ret (Ok tt) else Panic PExpect)
  /\ be_encode_at wr p fuel e (plainly buf) s = ((e', s), Ret (Ok tt)).
Proof.
  intros S wr s p fuel e buf bm e' VB VS. unfold be_encode_at. assert (BL : bb_len (plainly buf) = bb_len buf) by reflexivity.
  assert (CH : forall i m, be_chunk p (plainly buf) i m = be_chunk p buf i m) by reflexivity. cbn zeta.
  destruct (Nat.ltb_spec 0 (bb_len (be_remaining e))) as [L|L].
  - destruct (Nat.eqb_spec (bb_len (be_remaining e)) 0); [lia|]. rewrite andb_false_r.
    destruct (sub64 p _ _) as [want|k|]; cbn [pure]; [|discriminate..]. rewrite !CH. destruct (be_chunk p buf 0 want) as [c|k|]; cbn [pure]; [|discriminate..].
    destruct (bb_append_from_at p (be_remaining e) (plainly buf) (bc_start c) (bc_end c) 0) as [b1 [vp|k|]] eqn:AP; cbn [pure fst snd]; [|discriminate..].
    rewrite (append_other p (be_remaining e) buf bm _ _ _ b1 VB VS (ex_intro _ vp AP)). cbn [pure fst snd].
    destruct (_ <? _)%N; [intros [= <-]; auto|]. unfold be_write_remaining_at. cbn zeta. destruct (idx _ _) as [o|k|]; cbn [pure fst snd]; [|discriminate..].
    match goal with |- context [be_write_at refuse p ?a ?b ?c ?d tt] => pose proof (write_refused p a b c d) as W; destruct (snd (be_write_at refuse p a b c d tt)) as [[x|]|k|] end; cbn [pure]; try discriminate.
    destruct (W x eq_refl).
  - destruct fuel as [|fuel]; cbn [be_loop_at]; [discriminate|]. change (bb_offsets (plainly buf)) with (bb_offsets buf). change (be_chunk p (plainly buf) 0 (be_min e)) with (be_chunk p buf 0 (be_min e)).
    destruct (Nat.eqb_spec (bb_len (be_remaining e)) 0); [|lia]. rewrite andb_true_r. destruct (Nat.ltb_spec 0 (length (bb_offsets buf))) as [O|O].
    2:{ destruct (Nat.eqb_spec (length (bb_offsets buf)) 0); [|lia]. intros [= <-]. auto. }
    destruct (Nat.eqb_spec (length (bb_offsets buf)) 0); [lia|]. destruct (be_chunk p buf 0 (be_min e)) as [c|k|]; cbn [pure]; [|discriminate..].
    destruct (bc_size c <? be_min e)%N.
    + cbn zeta. destruct (bb_append_from_at p (be_remaining e) (plainly buf) (bc_start c) (bc_end c) 0) as [b1 [vp|k|]] eqn:AP; cbn [pure fst snd]; [|discriminate..].
      rewrite (append_other p (be_remaining e) buf bm _ _ _ b1 VB VS (ex_intro _ vp AP)). cbn [pure fst snd]. intros [= <-]. auto.
    + cbn zeta. pose proof (write_refused p e (plainly buf) c 0) as W. destruct (snd (be_write_at refuse p e (plainly buf) c 0 tt)) as [[x|]|k|]; cbn [pure]; try discriminate. destruct (W x eq_refl).
Qed.
Print Assumptions C102_other_kind_partial.

(** Values of a call that panicked are in the block of the next flush; and an
    encoder with nulls that is given one buffer without can write nothing any more. *)
Example C102_other_kind_example :
  let nulls := items_of true [Some [7%N]; None; Some [8; 9]%N] in
  bb_validity nulls <> None
  /\ be_encode_at refuse Debug 4 (be_new 128 false) (plainly nulls) tt = ((be_set_remaining (be_new 128 false) (plainly nulls), tt), Ret (Ok tt))
  /\ (let r := enc_anyway collect Debug (be_new 128 false, []) [Encode nulls; Flush] in
      snd r = [Panic PExpect; Ret (Ok tt)] /\ snd (fst r) = [(1%N, bin_block false [Some [7%N]; Some [8; 9]%N] [])])
  /\ (let r := enc_anyway collect Debug (be_new 128 true, []) [Encode (plain_buf [[7%N]]); Encode nulls; Flush; Encode nulls; Flush] in
      snd r = [Panic PAssert; Ret (Ok tt); Panic PAssert; Ret (Ok tt); Panic PAssert] /\ snd (fst r) = []).
Proof. vm_compute. split; [discriminate|]. repeat split. Qed.

(** * What does not hold *)

Definition empties : bin_buf := plain_buf (repeat [] 128).

(** Two calls that returned, after which more than 128 items are held back. *)
Definition clogged : bin_enc := fst (fst (enc_anyway collect Debug (be_new 128 false, []) [Encode (plain_buf [[97%N]]); Encode empties])).

Example C102_stuck_example :
  snd (enc_anyway collect Debug (be_new 128 false, []) [Encode (plain_buf [[97%N]]); Encode empties]) = [Ret (Ok tt); Ret (Ok tt)]
  /\ bb_len (be_remaining clogged) = 129
  /\ snd (be_flush_at collect Debug clogged []) = Panic PAssert.
Proof. vm_compute. repeat split. Qed.

(** C102 does not hold.  Rows of calls that returned may never be written: ["a"]
    was accepted, 128 empty items were accepted, and whatever is called after that
    (as long as the numbers of items fit), nothing is ever written.  And a call
    that panics may have written some of its rows, or leave them to the next flush. *)
Theorem C102_refuted :
  ~ (forall bufs, Forall (fun o => o = Ret (Ok tt)) (snd (enc_anyway collect Debug (be_new 128 false, []) (map Encode bufs))) ->
       exists calls, (N.of_nat (list_sum (map brings calls)) < 2 ^ 62)%N
         /\ In (Ret (Ok tt)) (map snd (filter (fun x => match fst x with Flush => true | _ => false end)
              (combine calls (snd (enc_anyway collect Debug (fst (enc_anyway collect Debug (be_new 128 false, []) (map Encode bufs))) calls))))))
  /\ ~ (forall (e : bin_enc) buf, match snd (be_encode_at collect Debug (length (bb_offsets buf)) e buf []) with
       | Panic _ => snd (fst (be_encode_at collect Debug (length (bb_offsets buf)) e buf [])) = [] | _ => True end)
  /\ ~ (forall buf, match snd (enc_anyway collect Debug (be_new 128 false, []) [Encode buf; Flush]) with
       | Panic _ :: _ => snd (fst (enc_anyway collect Debug (be_new 128 false, []) [Encode buf; Flush])) = [] | _ => True end).
Proof.
  split; [|split].
  - intros H. destruct (H [plain_buf [[97%N]]; empties]) as (calls & L & I).
    { cbn [map]. destruct C102_stuck_example as (E & _). rewrite E. repeat constructor. }
    cbn [map] in I. replace (fst (enc_anyway collect Debug (be_new 128 false, []) [Encode (plain_buf [[97%N]]); Encode empties])) with (clogged, @nil (N * list N)) in I
      by (unfold clogged; rewrite (surjective_pairing (fst (enc_anyway _ _ _ _))) at 1; f_equal; vm_compute; reflexivity).
    destruct C102_stuck_example as (_ & E & _).
    destruct (C102_stuck_partial (list (N * list N)) collect Debug clogged [] calls) as (_ & _ & _ & F).
    { rewrite E. lia. }
    { rewrite E. change (2 ^ 62)%N with 4611686018427387904%N in L. change (2 ^ 63)%N with 9223372036854775808%N. lia. }
    set (outs := snd (enc_anyway collect Debug (clogged, []) calls)) in *. clearbody outs. clear - F I.
    induction F as [|c o calls outs P F IH]; cbn [combine filter map fst snd] in I; [destruct I|].
    destruct c as [buf|]; cbn [map snd] in I; [exact (IH I)|]. destruct I as [I|I]; [exact (P eq_refl _ I)|exact (IH I)].
  - intros H. specialize (H (be_new 128 false) (plain_buf [long_item 1; long_item 2])). vm_compute in H. discriminate H.
  - intros H. specialize (H (items_of true [Some [7%N]; None; Some [8; 9]%N])). vm_compute in H. discriminate H.
Qed.
Print Assumptions C102_refuted.
