(** Properties C33 and C37 for every history of a binary column
    (raw/binary_enc.rs). *)
From Verif Require Import Base BaseProofs Spec SpecRows SpecBin Varint VarintProofs Buffers Observe BitmapProofs BuffersProofs
  Rle RleProofs Offsets OffsetsProofs Sink BinEnc ObserveEnc ReadBlock ReadBinBlock RowsProofs BlockProofs PrimRunProofs
  PropsPrimIds PropsPrimErr BinBlockProofs BinEncProofs BinRunProofs PropsBin PropsBinRows PropsBinExact.
Open Scope nat_scope.

(** ** C33 *)

Lemma bind_inv {A B} (m : outcome A) (k : A -> outcome B) r : bind m k = Ret r -> exists a, m = Ret a /\ k a = Ret r.
Proof. destruct m as [a| |]; cbn; [eauto|discriminate..]. Qed.

(** Calls of [encode] that go on after a failed one. *)
Fixpoint be_tries {S} (wr : sink_fn S) (p : profile) (e : bin_enc) (bufs : list bin_buf) (s : S)
  : outcome (bin_enc * S * list (result unit)) :=
  match bufs with
  | [] => Ret (e, s, [])
  | b :: rest =>
      let* r := be_encode wr p (length (bb_offsets b)) e b s in
      let '(e, s, res) := r in
      let* r := be_tries wr p e rest s in
      let '(e, s, ress) := r in Ret (e, s, res :: ress)
  end.

Section Pending.
Context {S : Type} (wr : sink_fn S) (p : profile).

(** Held back data has items, and the offsets begin with one that belongs to none. *)
Definition tidy (e : bin_enc) : Prop :=
  0 < length (bb_offsets (be_remaining e)) /\ (bb_len (be_remaining e) = 0 -> bb_data (be_remaining e) = []).

Lemma push_offsets_length buf count : forall i o acc offs, bb_push_offsets p buf i count o acc = Ret offs -> length offs = length acc + count.
Proof.
  induction count as [|count IH]; intros i o acc offs H; cbn [bb_push_offsets] in H.
  - injection H as <-. lia.
  - apply bind_inv in H. destruct H as (l & _ & H). apply bind_inv in H. destruct H as (o' & _ & H). apply IH in H. rewrite app_length in H. cbn in H. lia.
Qed.

Lemma append_from_data b buf s t v r : bb_append_from p b buf s t v = Ret r ->
  exists so eo, idx (bb_offsets buf) s = Ret so /\ idx (bb_offsets buf) t = Ret eo /\ (so <= eo)%N
    /\ length (bb_data (fst r)) = length (bb_data b) + (N.to_nat eo - N.to_nat so)
    /\ length (bb_offsets (fst r)) = length (bb_offsets b) + (t - s).
Proof.
  unfold bb_append_from. intros H.
  apply bind_inv in H. destruct H as (so & E1 & H). apply bind_inv in H. destruct H as (eo & E2 & H).
  apply bind_inv in H. destruct H as (cl & _ & H). apply bind_inv in H. destruct H as (offs & E3 & H).
  apply bind_inv in H. destruct H as (ch & E4 & H). destruct (_ <? u32_max)%N; [|discriminate].
  apply bind_inv in H. destruct H as ([va vp] & _ & H). injection H as <-. cbn [fst bb_data bb_offsets].
  apply push_offsets_length in E3. unfold slice in E4.
  destruct (Nat.leb_spec (N.to_nat so) (N.to_nat eo)) as [L|L]; cbn [andb] in E4; [|discriminate].
  destruct (Nat.leb_spec (N.to_nat eo) (length (bb_data buf))) as [L2|L2]; [|discriminate]. injection E4 as <-.
  exists so, eo. repeat split; auto; [lia|]. rewrite app_length, firstn_length, skipn_length. lia.
Qed.

Lemma find_offset_some offs so m i r : find_offset p offs so m i = Ret (Some r) -> exists d, sub32 p (snd r) so = Ret d /\ (m <= d)%N.
Proof.
  revert i. induction offs as [|o offs IH]; intros i H; cbn [find_offset] in H; [discriminate|].
  apply bind_inv in H. destruct H as (d & E & H). destruct (N.leb_spec m d) as [L|L]; [|eauto].
  injection H as <-. cbn [snd]. eauto.
Qed.

(** A chunk that is too small goes to the end of the buffer. *)
Lemma chunk_small buf s m c : be_chunk p buf s m = Ret c -> (bc_size c < m)%N ->
  bc_start c = s /\ bc_end c = length (bb_offsets buf) - 1 /\ s <= bc_end c
  /\ exists so eo, idx (bb_offsets buf) s = Ret so /\ idx (bb_offsets buf) (bc_end c) = Ret eo /\ sub32 p eo so = Ret (bc_size c).
Proof.
  unfold be_chunk. intros H HS. apply bind_inv in H. destruct H as (so & E1 & H). apply bind_inv in H. destruct H as ([[i o]|] & E2 & H).
  - rewrite bind_ret in H. apply bind_inv in H. destruct H as (sz & E3 & H). apply bind_inv in H. destruct H as (l & _ & H).
    injection H as <-. cbn [bc_size] in HS. apply find_offset_some in E2. destruct E2 as (d & E2 & L). cbn [snd] in E2.
    rewrite E2 in E3. injection E3 as <-. lia.
  - apply bind_inv in H. destruct H as ([t eo] & H0 & H). apply bind_inv in H0. destruct H0 as (o & E3 & H0). injection H0 as <- <-.
    apply bind_inv in H. destruct H as (sz & E4 & H). apply bind_inv in H. destruct H as (l & _ & H). injection H as <-.
    cbn [bc_start bc_end bc_size]. repeat split.
    + assert (s < length (bb_offsets buf)); [|lia]. unfold idx in E1. destruct (nth_error (bb_offsets buf) s) eqn:EN; [|discriminate].
      apply nth_error_Some. rewrite EN. discriminate.
    + exists so, o. auto.
Qed.

Lemma be_write_remaining_same e buf c v s e' s' r : be_write wr p e buf c v s = Ret (e', s', r) ->
  be_remaining e' = be_remaining e /\ be_min e' = be_min e.
Proof.
  unfold be_write. intros H. apply bind_inv in H. destruct H as ([[enc rle] [n v']] & _ & H).
  apply bind_inv in H. destruct H as (rows & _ & H). apply bind_inv in H. destruct H as (id & _ & H). injection H as <- _ _. split; reflexivity.
Qed.

Lemma be_loop_pending : forall fuel e buf pos v s e' s' r,
  (0 < be_min e)%N -> bb_data (be_remaining e) = [] -> tidy e -> be_loop wr p fuel e buf pos v s = Ret (e', s', r) ->
  (N.of_nat (length (bb_data (be_remaining e'))) < be_min e)%N /\ be_min e' = be_min e /\ tidy e'.
Proof.
  induction fuel as [|fuel IH]; intros e buf pos v s e' s' r HB HD [HO _] H; cbn [be_loop] in H; [discriminate|].
  destruct (Nat.ltb_spec pos (length (bb_offsets buf))) as [LP|LP].
  - apply bind_inv in H. destruct H as (c & EC & H). destruct (N.ltb_spec (bc_size c) (be_min e)) as [LS|LS].
    + apply bind_inv in H. destruct H as (a & EA & H). injection H as <- <- <-. cbn [be_set_remaining be_remaining be_min].
      destruct (chunk_small _ _ _ _ EC LS) as (C1 & C2 & C3 & so & eo & C4 & C5 & C6).
      apply append_from_data in EA. destruct EA as (so' & eo' & A1 & A2 & A3 & A4 & A5). rewrite C1 in A1, A5. rewrite C4 in A1. injection A1 as <-.
      rewrite C5 in A2. injection A2 as <-. rewrite HD in A4. cbn [length] in A4. unfold sub32, usub in C6.
      apply N.leb_le in A3. rewrite A3 in C6. apply N.leb_le in A3. injection C6 as C6.
      split; [rewrite A4; lia|]. split; [reflexivity|]. unfold tidy. cbn [be_set_remaining be_remaining]. unfold bb_len.
      split; [lia|]. intros E0. assert (EQ : bc_end c = pos) by lia. apply length_zero_iff_nil.
      rewrite EQ in C5. rewrite C5 in C4. injection C4 as ->. lia.
    + apply bind_inv in H. destruct H as ([[e1 s1] res] & EW & H). apply be_write_remaining_same in EW. destruct EW as [W1 W2].
      destruct res as [lv|].
      * rewrite <- W2. eapply IH; [rewrite W2; exact HB|rewrite W1; exact HD|split; rewrite W1; auto|exact H].
      * injection H as <- <- <-. rewrite W1, HD, W2. split; [exact HB|]. split; [reflexivity|]. split; rewrite W1; auto.
  - injection H as <- <- <-. rewrite HD. split; [exact HB|]. split; [reflexivity|]. split; auto.
Qed.

(** After a call the data held back is less than a block, unless the call failed
    while rows were held back; whatever was held back before, for every buffer. *)
Lemma be_encode_pending : forall fuel e buf s e' s' r,
  (0 < be_min e)%N -> tidy e -> be_encode wr p fuel e buf s = Ret (e', s', r) ->
  be_min e' = be_min e /\ tidy e'
  /\ ((N.of_nat (length (bb_data (be_remaining e'))) < be_min e)%N \/ (r = Err /\ 0 < bb_len (be_remaining e))).
Proof.
  intros fuel e buf s e' s' r HB [HO HI] H. unfold be_encode in H.
  destruct (Nat.ltb_spec 0 (bb_len (be_remaining e))) as [LP|LP].
  - apply bind_inv in H. destruct H as (want & _ & H). apply bind_inv in H. destruct H as (c & _ & H).
    apply bind_inv in H. destruct H as (a & EA & H). apply append_from_data in EA. destruct EA as (so & eo & _ & _ & _ & A4 & A5).
    assert (T1 : tidy (be_set_remaining e (fst a))).
    { unfold tidy. cbn [be_set_remaining be_remaining]. unfold bb_len in *. split; lia. }
    cbn [be_set_remaining be_remaining be_min] in H.
    destruct (N.ltb_spec (N.of_nat (length (bb_data (fst a)))) (be_min e)) as [LS|LS].
    { injection H as <- <- <-. split; [reflexivity|]. split; [exact T1|]. left. exact LS. }
    apply bind_inv in H. destruct H as ([[e1 s1] res] & EW & H). unfold be_write_remaining in EW. apply bind_inv in EW. destruct EW as (o & _ & EW).
    apply be_write_remaining_same in EW. destruct EW as [W1 W2]. cbn [be_set_remaining be_remaining be_min] in W1, W2.
    destruct res as [lv|].
    + apply be_loop_pending in H; cbn [be_set_remaining be_remaining be_min].
      * rewrite <- W2. cbn [be_set_remaining be_min] in H. destruct H as (H1 & H2 & H3). split; [exact H2|]. split; [exact H3|]. left. exact H1.
      * rewrite W2. exact HB.
      * reflexivity.
      * split; [|reflexivity]. cbn [be_set_remaining be_remaining bb_clear bb_offsets]. rewrite firstn_length, W1. unfold bb_len in LP. lia.
    + injection H as <- <- <-. split; [exact W2|]. split; [unfold tidy; rewrite W1; exact T1|]. right. auto.
  - apply be_loop_pending in H; auto; [|apply HI; lia|split; auto]. destruct H as (H1 & H2 & H3). split; [exact H2|]. split; [exact H3|]. left. exact H1.
Qed.
End Pending.

(** C33 for every history, failed calls included, every buffers, sink and build:
    the data held back is less than a block whenever the latest call was a
    success.  Partial: after a failed call it need not be, see
    [C33_pending_after_error_refuted]. *)
Theorem C33_after_success_partial :
  forall S (wr : sink_fn S) p B nl bufs s e s' results, (0 < B)%N ->
  be_tries wr p (be_new B nl) bufs s = Ret (e, s', results) -> last results (Ok tt) = Ok tt ->
  (N.of_nat (length (bb_data (be_remaining e))) < B)%N /\ be_min e = B.
Proof.
  intros S wr p B nl bufs s e s' results HB HT HL.
  assert (X : forall bufs (e0 : bin_enc) s e s' results, tidy e0 -> be_min e0 = B -> be_tries wr p e0 bufs s = Ret (e, s', results) ->
    tidy e /\ be_min e = B /\ (results = [] -> e = e0)
    /\ (results <> [] -> last results (Ok tt) = Ok tt -> N.of_nat (length (bb_data (be_remaining e))) < B)%N).
  { clear -HB. induction bufs as [|b bufs IH]; intros e0 s e s' results T M H; cbn [be_tries] in H.
    - injection H as <- <- <-. repeat split; auto; try apply T. congruence.
    - apply bind_inv in H. destruct H as ([[e1 s1] res] & E1 & H). apply bind_inv in H. destruct H as ([[e2 s2] ress] & E2 & H).
      injection H as <- <- <-. apply be_encode_pending in E1; [|rewrite M; exact HB|exact T]. destruct E1 as (M1 & T1 & P1). rewrite M in M1, P1.
      destruct (IH _ _ _ _ _ T1 M1 E2) as (T2 & M2 & N2 & P2). split; [exact T2|]. split; [exact M2|]. split; [discriminate|].
      intros _ L. destruct ress as [|r1 ress].
      + rewrite (N2 eq_refl). cbn [last] in L. subst res. destruct P1 as [P1|[P1 _]]; [exact P1|discriminate].
      + apply P2; [discriminate|exact L]. }
  destruct (X bufs (be_new B nl) s e s' results) as (_ & M & N0 & P); auto.
  { split; [cbn; lia|reflexivity]. }
  split; [|exact M]. destruct results as [|r ress]; [rewrite (N0 eq_refl); exact HB|]. apply P; [discriminate|exact HL].
Qed.
Print Assumptions C33_after_success_partial.

(** The second call fails and leaves more than a block; a build without overflow
    checks goes on, and the third call leaves less again. *)
Example C33_after_success_witness :
  match bb_fill false [[Some [1; 2; 3]]; [Some [4; 5]]; [Some [6]]]%N with
  | Ret bufs =>
      match be_tries fails_once Release (be_new 4 false) (firstn 2 bufs) (Some 0, []), be_tries fails_once Release (be_new 4 false) bufs (Some 0, []) with
      | Ret (e, _, results), Ret (e', _, results') =>
          results = [Ok tt; Err] /\ bb_data (be_remaining e) = [1; 2; 3; 4; 5]%N
          /\ results' = [Ok tt; Err; Ok tt] /\ bb_data (be_remaining e') = []
      | _, _ => False end
  | _ => False end.
Proof. vm_compute. repeat split. Qed.

(** ** C37 *)

Lemma counted_right (items : list bin_item) : Forall (fun it => 0 < it_count it) items -> forall from,
  (forall i id, nth_error (counted from items) i = Some id -> (id + 1 = from + N.of_nat (length (concat (firstn (S i) (map it_rows items)))))%N)
  <-> Forall (fun it => it_count it = length (it_rows it)) items.
Proof.
  induction 1 as [|it items Hn _ IH]; intros from; cbn [map counted].
  - split; [constructor|]. intros _ [|i] id; discriminate.
  - specialize (IH (from + N.of_nat (it_count it))%N). split.
    + intros H. pose proof (H 0 _ eq_refl) as H0. cbn [firstn concat] in H0. rewrite app_nil_r in H0. constructor; [lia|].
      apply (proj1 IH). intros i id E. specialize (H (S i) id E).
      replace (firstn (S (S i)) (it_rows it :: map it_rows items)) with (it_rows it :: firstn (S i) (map it_rows items)) in H by reflexivity.
      cbn [concat] in H. rewrite app_length in H. lia.
    + intros H. inversion H as [|? ? H1 H2]; subst. pose proof (proj2 IH H2) as H3.
      intros [|i] id E; cbn [nth_error] in E.
      * injection E as <-. cbn [firstn concat]. rewrite app_nil_r. lia.
      * specialize (H3 i id E). replace (firstn (S (S i)) (it_rows it :: map it_rows items)) with (it_rows it :: firstn (S i) (map it_rows items)) by reflexivity.
        cbn [concat]. rewrite app_length. lia.
Qed.

(** No block is counted for fewer rows than it has, and without nulls it is
    counted for as many. *)
Definition count_ok (nl : bool) (it : bin_item) : Prop := length (it_rows it) <= it_count it /\ (nl = false -> it_count it = length (it_rows it)).

Lemma bin_cut_counts p nl B : forall f s pos rows, Forall (count_ok nl) (fst (bin_cut p nl f B s pos rows)).
Proof.
  induction f as [|f IH]; intros s pos rows; cbn [bin_cut]; [constructor|].
  destruct (fill B (somes rows)) as [q|]; [|constructor]. destruct (q <=? s); [constructor|]. cbn [fst]. constructor; [|apply IH].
  unfold count_ok. cbn [it_count it_rows]. destruct nl; split; try lia; discriminate.
Qed.

Lemma bin_run_counts p nl B : forall rowss past R, Forall (count_ok nl) (fst (snd (bin_run p nl B past R rowss))).
Proof.
  induction rowss as [|b rowss IH]; intros past R; cbn [bin_run]; [constructor|].
  assert (ST : Forall (count_ok nl) (fst (snd (bin_step p nl B past R b)))).
  { unfold bin_step. destruct R as [|x R]; [apply bin_cut_counts|]. destruct (fill _ _) as [k|]; [|constructor]. cbn [fst snd].
    constructor; [|apply bin_cut_counts]. split; cbn [it_count it_rows]; auto. }
  destruct (bin_step p nl B past R b) as [past1 [its [R1|k]]]; cbn [fst snd] in *; [|exact ST]. apply Forall_app. auto.
Qed.

(** C37 for every column that could be written: the identifiers are right exactly
    if every block is counted for the rows it has, which is always so without
    nulls. *)
Theorem C37_row_ids_exact :
  forall p B nl rowss blocks res, (0 < B)%N -> Forall (rows_allowed nl) rowss ->
  Forall (fun r => B + N.of_nat (length (concat (somes r))) < 2 ^ 32)%N rowss ->
  (N.of_nat (length (concat rowss)) <= 2 ^ 32 - 2)%N ->
  be_column_rows p B nl rowss = Ret (blocks, res) ->
  let items := fst (planned_blocks p nl B rowss) in
  Forall2 (fun it block => layout p nl (it_rows it) (it_extra it) (snd block)) items blocks
  /\ (ids_right (map fst blocks) (map it_rows items) <-> Forall (fun it => it_count it = length (it_rows it)) items)
  /\ (nl = false -> ids_right (map fst blocks) (map it_rows items)).
Proof.
  intros p B nl rowss blocks res HB HA HF HL E. cbn zeta.
  pose proof (C34_column_exact p B nl rowss HB HA HF HL) as X.
  destruct (proj1 (C35_returns_exact p B nl rowss HB HA HF HL) (ex_intro _ _ E)) as [W ST].
  assert (HF2 : Forall (fun r => B + N.of_nat (bytes_of r) <= u32_max)%N rowss).
  { change (2 ^ 32)%N with 4294967296%N in HF. eapply Forall_impl; [|exact HF]. unfold u32_max, bytes_of. cbn. intros; lia. }
  pose proof (planned_bounded p B nl rowss HB HF2) as PB. rewrite <- planned_is in PB.
  assert (CO : Forall (count_ok nl) (fst (planned_blocks p nl B rowss))).
  { unfold planned_blocks. pose proof (bin_run_counts p nl B rowss [] []) as C. destruct (bin_run p nl B [] [] rowss) as [past [its [R|k]]]; cbn [fst snd] in *; [|exact C].
    destruct R; cbn [fst]; [exact C|]. apply Forall_app. split; [exact C|]. constructor; [|constructor]. split; cbn [it_count it_rows]; auto. }
  destruct (planned_blocks p nl B rowss) as [items stop]. cbn [fst snd] in *.
  destruct X as (X1 & _ & _). destruct (X1 W ST) as (blocks' & E' & IDS & LAY). rewrite E' in E. injection E as -> _.
  split; [exact LAY|]. rewrite IDS.
  assert (POS : Forall (fun it => 0 < it_count it) items).
  { clear -PB CO. induction PB as [|it items (P1 & _) _ IH]; [constructor|]. apply Forall_cons_iff in CO. destruct CO as [[C1 _] C2].
    constructor; [|auto]. pose proof (somes_length_le (it_rows it)). unfold num_vals in P1. lia. }
  assert (IFF : ids_right (counted 0 items) (map it_rows items) <-> Forall (fun it => it_count it = length (it_rows it)) items).
  { pose proof (counted_right items POS 0%N) as RR. unfold ids_right. split.
    - intros [_ H]. apply (proj1 RR). intros i id Hi. rewrite N.add_0_l. auto.
    - intros H. split.
      + rewrite map_length. clear. generalize 0%N. induction items as [|b l IH]; intros n; cbn [counted length]; [reflexivity|f_equal; apply IH].
      + intros i id Hi. rewrite (proj2 RR H i id Hi). apply N.add_0_l. }
  split; [exact IFF|]. intros EN. apply IFF. eapply Forall_impl; [|exact CO]. intros it [_ C]. apply C, EN.
Qed.
Print Assumptions C37_row_ids_exact.

(** The same data with and without nulls allowed: the second block is counted from
    the start of the buffer only if they are. *)
Example C37_exact_witness :
  let rowss := [[Some [1; 1; 1; 1]; Some [2]; Some [3]; Some [4]; Some [5]]]%N in
  map (fun it => (it_count it, length (it_rows it))) (fst (planned_blocks Release true 4 rowss)) = [(1, 1); (4, 3); (1, 1)]
  /\ match be_column_rows Release 4 true rowss, be_column_rows Release 4 false rowss with
     | Ret (blocks, Ok _), Ret (blocks', Ok _) => map fst blocks = [0; 4; 5]%N /\ map fst blocks' = [0; 3; 4]%N
     | _, _ => False end.
Proof. vm_compute. repeat split. Qed.
