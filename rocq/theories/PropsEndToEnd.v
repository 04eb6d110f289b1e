(** C96: large values, from the buffer to what a crash leaves and back. *)
From Verif Require Import Base BaseProofs Spec SpecRows SpecBin Varint VarintProofs Buffers Observe BitmapProofs BuffersProofs
  Rle RleProofs Offsets OffsetsProofs PropsOffsets Sink PrimEnc BinEnc ObserveEnc ReadBlock ReadBinBlock RowsProofs BlockProofs PrimEncProofs PrimRunProofs
  PropsPrim PropsPrimRows PropsPrimIds PropsPrimAny PropsPrimAll PropsPrimAllErr PropsRle BinBlockProofs BinEncProofs BinRunProofs PropsBin PropsBinRows PropsBinExact PropsBinPending
  Io SpecIo IoProofs IoReadProofs PropsIo Metadata SpecProto Names PropsNames Segment SpecSegment SegmentProofs SegmentRunProofs PropsSegment PropsSegmentEx PropsSegmentRef
  PropsCrash PropsReadBack PropsDivision PropsApart PropsLookup.
Open Scope nat_scope.

(** A column of large values: raw, without nulls, every value of at least a block. *)
Definition large_column (c : column_info * list (list N)) : Prop :=
  ci_encoding (fst c) = Raw /\ ci_nullable (fst c) = false
  /\ Forall (fun v => 128 <= N.of_nat (length v) < 2 ^ 32 - 128)%N (snd c) /\ (N.of_nat (length (snd c)) <= 2 ^ 32 - 2)%N.

(** A buffer for each value. *)
Definition in_buffers (c : column_info * list (list N)) (bufs : list bin_buf) : Prop :=
  Forall2 (fun v b => bb_append (bb_new false) v = Ret b) (snd c) bufs.

(** Writing all columns, one after the other. *)
Definition write_all (cols : list (column_info * list (list N))) (bufss : list (list bin_buf)) : list seg_op :=
  map (fun cb => SColumn (fst (fst cb)) (map CWrite (snd cb) ++ [CClose])) (combine cols bufss).

Definition alone (vs : list (list N)) : list (list (option (list N))) := map (fun v => [Some v]) vs.

Lemma alone_concat vs : concat (alone vs) = map Some vs.
Proof. induction vs as [|v vs IH]; [reflexivity|]. cbn [alone map concat app]. f_equal. exact IH. Qed.

Lemma alone_full vs : Forall full (alone vs).
Proof. apply Forall_map, Forall_forall. intros v _. constructor; [reflexivity|constructor]. Qed.

Lemma planned_alone p vs : Forall (fun v => 128 <= N.of_nat (length v))%N vs ->
  forall past, bin_run p false 128 past [] (alone vs) = (past, (map (fun v => mk_item 1 [Some v] []) vs, Held [])).
Proof.
  intros F. induction F as [|v vs L _ IH]; intros past; [reflexivity|]. change (alone (v :: vs)) with ([Some v] :: alone vs). cbn [bin_run].
  assert (ST : bin_step p false 128 past [] [Some v] = (past, ([mk_item 1 [Some v] []], Held []))).
  { cbn [bin_step]. change (num_vals [Some v]) with 1. cbn [bin_cut somes SpecBin.fill]. change (128 =? 0)%N with false. cbn iota.
    replace (128 - N.of_nat (length v))%N with 0%N by lia. reflexivity. }
  rewrite ST, IH. reflexivity.
Qed.

Lemma counted_alone vs : forall from, counted from (map (fun v => mk_item 1 [Some v] []) vs) = map (fun i => from + N.of_nat i)%N (seq 0 (length vs)).
Proof.
  induction vs as [|v vs IH]; intros from; [reflexivity|]. cbn [map counted length seq it_count]. f_equal; [lia|]. rewrite IH, <- seq_shift, map_map.
  apply map_ext. intros i. lia.
Qed.

Lemma alone_bounds vs : Forall (fun v => 128 <= N.of_nat (length v) < 2 ^ 32 - 128)%N vs ->
  Forall (fun r => 128 + N.of_nat (length (concat (somes r))) < 2 ^ 32)%N (alone vs).
Proof. intros F. apply Forall_map. eapply Forall_impl; [|exact F]. cbn beta. intros v L. cbn [somes concat]. rewrite app_nil_r. change (2 ^ 32)%N with 4294967296%N in *. lia. Qed.

Lemma alone_blocks p vs : Forall (fun v => 128 <= N.of_nat (length v) < 2 ^ 32 - 128)%N vs -> (N.of_nat (length vs) <= 2 ^ 32 - 2)%N ->
  exists blocks, be_column_rows p 128 false (alone vs) = Ret (blocks, Ok tt) /\ map fst blocks = map N.of_nat (seq 0 (length vs)).
Proof.
  intros F L.
  assert (HL : (N.of_nat (length (concat (alone vs))) <= 2 ^ 32 - 2)%N) by (rewrite alone_concat, map_length; exact L).
  pose proof (C34_column_exact p 128 false (alone vs) ltac:(reflexivity) ltac:(eapply Forall_impl; [|apply alone_full]; intros r Hr; right; exact Hr) (alone_bounds vs F) HL) as X.
  assert (PB : planned_blocks p false 128 (alone vs) = (map (fun v => mk_item 1 [Some v] []) vs, None)).
  { unfold planned_blocks. rewrite planned_alone; [reflexivity|]. eapply Forall_impl; [|exact F]. cbn beta. lia. }
  rewrite PB in X. destruct X as (X & _). destruct X as (blocks & E & IDS & _); [|reflexivity|].
  - split; [apply Forall_map, Forall_forall; intros v _; cbn; lia|]. rewrite map_map. cbn [it_count].
    assert (S1 : list_sum (map (fun _ : list N => 1) vs) = length vs) by (clear; induction vs as [|v vs IH]; [reflexivity|]; cbn [map list_sum fold_right length]; unfold list_sum in IH; rewrite IH; reflexivity).
    rewrite S1. change (2 ^ 32 - 2)%N with 4294967294%N in L. change (2 ^ 32)%N with 4294967296%N. lia.
  - exists blocks. split; [exact E|]. rewrite IDS, counted_alone. apply map_ext. intros i. lia.
Qed.

Lemma one_readable v : (N.of_nat (length v) < 2 ^ 32)%N -> lens_readable [v].
Proof.
  intros L. unfold lens_readable. cbn [map length]. set (src := [N.of_nat (length v)]).
  assert (WB : width src <= 32) by (apply (proj2 (width_least src)); constructor; [exact L|constructor]).
  destruct (proj1 C24_counts_partial (width src) WB) as (R1 & _).
  destruct (proj1 (C24_partial_block_exact 1 (width src) ltac:(lia) WB) R1 Debug src [] eq_refl (width_least src)) as (s & bytes & E & RD).
  exists s, (width src), bytes. split; [exact E|exact RD].
Qed.

Lemma between_ones n : forall from, rows_between from (map (fun i => from + N.of_nat i)%N (seq 0 n)) = repeat 1 n.
Proof.
  induction n as [|n IH]; intros from; [reflexivity|]. cbn [seq map rows_between repeat]. f_equal; [lia|].
  rewrite <- (IH (from + N.of_nat 0 + 1)%N), <- seq_shift, map_map. f_equal. apply map_ext. intros i. lia.
Qed.

Lemma split_ones vs : split_rows (repeat 1 (length vs)) (map (@Some (list N)) vs) = alone vs.
Proof. induction vs as [|v vs IH]; [reflexivity|]. cbn [length repeat split_rows map firstn skipn alone]. f_equal. exact IH. Qed.

(** Every value is found in its block. *)
Lemma alone_found p vs blocks r : Forall (fun v => 128 <= N.of_nat (length v) < 2 ^ 32 - 128)%N vs -> (N.of_nat (length vs) <= 2 ^ 32 - 2)%N ->
  be_column_rows p 128 false (alone vs) = Ret (blocks, Ok tt) -> binary_row p blocks (N.of_nat r) = nth_error vs r.
Proof.
  intros F L E. destruct (alone_blocks p vs F L) as (b2 & E2 & IDS). rewrite E in E2. injection E2 as <-.
  assert (HL : (N.of_nat (length (concat (alone vs))) <= 2 ^ 32 - 2)%N) by (rewrite alone_concat, map_length; exact L).
  pose proof (C94_binary_partial p 128 (alone vs) blocks (Ok tt) r ltac:(reflexivity) (alone_full vs) (alone_bounds vs F) HL E) as X. cbn zeta in X.
  assert (SP : split_rows (rows_between 0 (map fst blocks)) (concat (alone vs)) = alone vs).
  { rewrite IDS, alone_concat. change (map N.of_nat (seq 0 (length vs))) with (map (fun i => 0 + N.of_nat i)%N (seq 0 (length vs))). rewrite between_ones. apply split_ones. }
  rewrite SP, alone_concat in X. rewrite nth_error_map in X. destruct (nth_error vs r) as [v|] eqn:EV; cbn [option_map] in X; [|tauto].
  destruct X as (i & pos & _ & _ & NE & RD). apply RD. clear RD.
  unfold alone in *. destruct (Nat.ltb_spec i (length vs)) as [LI|LI].
  - rewrite (nth_indep _ [] [Some []]) by (rewrite map_length; exact LI). rewrite (map_nth (fun v => [Some v]) vs [] i). cbn [somes]. apply one_readable.
    rewrite Forall_forall in F. specialize (F _ (nth_In vs [] LI)). change (2 ^ 32)%N with 4294967296%N in *. lia.
  - rewrite nth_overflow in NE by (rewrite map_length; exact LI). destruct pos; discriminate NE.
Qed.

Lemma alone_fill c bufs : in_buffers c bufs -> bb_fill false (alone (snd c)) = Ret bufs.
Proof.
  unfold in_buffers. induction 1 as [|v b vs bufs E _ IH]; [reflexivity|]. cbn [alone map bb_fill bb_append_rows]. rewrite E. cbn [bind].
  fold (alone vs). rewrite IH. reflexivity.
Qed.

Lemma buffers_exist c : large_column c -> exists bufs, in_buffers c bufs.
Proof.
  intros (_ & _ & F & _). unfold in_buffers. induction F as [|v vs L _ IH]; [exists []; constructor|]. destruct IH as (bufs & IH).
  unfold bb_append at 1. cbn [bb_new bb_data app].
  exists (mk_bin v (bb_offsets (bb_new false) ++ [N.of_nat (length v)]) None :: bufs). constructor; [|exact IH].
  unfold bb_append. cbn [bb_new bb_data app bb_validity]. unfold u32_max. destruct (N.leb_spec (N.of_nat (length v)) 4294967295) as [X|X]; [reflexivity|].
  exfalso. clear -L X. change (2 ^ 32 - 128)%N with 4294967168%N in L. lia.
Qed.

Lemma write_all_blocks p : forall cols bufss, Forall large_column cols -> Forall2 in_buffers cols bufss -> exists blocks, segment_blocks p (write_all cols bufss) = Ret blocks.
Proof.
  intros cols bufss FL F2. induction F2 as [|c b cols bufss IB _ IH]; [exists []; reflexivity|].
  apply Forall_cons_iff in FL. destruct FL as [LC FL]. destruct (IH FL) as (more & EM). destruct LC as (RAW & NN & F & L).
  destruct (alone_blocks p (snd c) F L) as (bl & E & _). rewrite <- NN in E.
  unfold write_all. cbn [combine map segment_blocks fst snd]. fold (write_all cols bufss).
  rewrite (proj2 (raw_blocks p (fst c) (alone (snd c)) b bl RAW ltac:(rewrite NN; apply alone_fill, IB)) E). cbn [bind]. rewrite EM. eexists. reflexivity.
Qed.

Lemma write_all_app cols1 bufss1 cols2 bufss2 : length cols1 = length bufss1 -> write_all (cols1 ++ cols2) (bufss1 ++ bufss2) = write_all cols1 bufss1 ++ write_all cols2 bufss2.
Proof.
  intros L. unfold write_all. rewrite <- map_app. f_equal. revert bufss1 L. induction cols1 as [|c cols1 IH]; intros [|b bufss1] L; try discriminate L; [reflexivity|].
  cbn [app combine]. f_equal. apply IH. cbn in L. lia.
Qed.

Lemma write_all_orders cols bufss it : orders_ok [SClose it] -> orders_ok (write_all cols bufss ++ [SClose it]).
Proof. intros O. apply Forall_app. split; [|exact O]. unfold write_all. apply Forall_map, Forall_forall. intros x _. exact I. Qed.

(** C96: on a system where nothing fails, any number of columns of large values,
    a buffer for each value, can be written, closed and synced; and from what any
    later crash leaves of the data file (if other programs leave the files alone)
    each value of each column is read back by its number, and no others, with the
    block index the column had, and the position where the columns before it
    end. *)
Theorem C96_large_values : forall d p w base info cols it,
  0 < wd_max w -> is_id (si_segment_id info) -> all_succeed w -> orders_ok [SClose it] -> Forall large_column cols ->
  exists bufss w1 sg w2 sg2 rs w3,
    Forall2 in_buffers cols bufss /\ segment_new w base info = (w1, Ok sg)
    /\ seg_run p w1 sg (write_all cols bufss ++ [SClose it]) = Ret (w2, sg2, rs) /\ all_ok rs
    /\ segment_sync w2 sg2 = (w3, Ok tt)
    /\ forall others d',
         Forall (fun e => event_path e <> data_path base (si_segment_id info) /\ event_path e <> index_path base (si_segment_id info)) others ->
         after_crash true d (wd_log w3 ++ others) d' ->
         exists file, d' (data_path base (si_segment_id info)) = Some file
           /\ (file_ok file -> forall before c after, cols = before ++ c :: after ->
                 exists earlier wi sgi rsi,
                   segment_blocks p (write_all before (firstn (length before) bufss)) = Ret earlier
                   /\ seg_run p w1 sg (write_all (before ++ [c]) bufss) = Ret (wi, sgi, rsi)
                   /\ forall r, file_row p file (13 + N.of_nat (length (concat (map snd earlier))))
                                 (bi_row_id (sg_block_index sgi)) (bi_offset (sg_block_index sgi)) (N.of_nat r)
                                = nth_error (snd c) r).
Proof.
  intros d p w base info cols it M ID AS O FL.
  assert (BX : exists bufss, Forall2 in_buffers cols bufss).
  { clear -FL. induction FL as [|c cols L _ IH]; [exists []; constructor|]. destruct IH as (bufss & IH). destruct (buffers_exist c L) as (b & B).
    exists (b :: bufss). constructor; assumption. }
  destruct BX as (bufss & FB). destruct (write_all_blocks p cols bufss FL FB) as (blocks & SB).
  assert (SB2 : segment_blocks p (write_all cols bufss ++ [SClose it]) = Ret blocks).
  { rewrite segment_blocks_app, SB. cbn [segment_blocks bind]. rewrite app_nil_r. reflexivity. }
  assert (SU : supported (write_all cols bufss ++ [SClose it])).
  { apply Forall_app. split; [|constructor; [exact I|constructor]]. unfold write_all. apply Forall_map, Forall_forall. intros [c b] IN. left.
    apply in_combine_l in IN. rewrite Forall_forall in FL. exact (proj1 (FL c IN)). }
  destruct (C45_no_false_alarm p w base info _ blocks M ID AS SU SB2) as (w1 & sg & w2 & sg2 & rs & NW & R & A & w3 & SY).
  exists bufss, w1, sg, w2, sg2, rs, w3. split; [exact FB|]. split; [exact NW|]. split; [exact R|]. split; [exact A|]. split; [exact SY|].
  intros others d' FO AC. pose proof (write_all_orders cols bufss it O) as OO.
  destruct (C54_closed_and_synced_partial d p w base info w1 sg _ it w2 sg2 rs w3 others d' M ID NW OO R A SY FO AC) as (SAME & _ & (bl & _ & DD) & _).
  eexists. split; [exact DD|]. rewrite SAME in DD. intros FOK before c after ->.
  apply Forall2_app_inv_l in FB. destruct FB as (b1 & b2 & F1 & F2 & ->). inversion F2 as [|? b ? b3 FC F3]; subst.
  pose proof (Forall2_len _ _ _ _ _ F1) as L1. rewrite L1, firstn_app, Nat.sub_diag, firstn_all. cbn [firstn]. rewrite app_nil_r.
  apply Forall_app in FL. destruct FL as [FL1 FL2]. apply Forall_cons_iff in FL2. destruct FL2 as [FLC _]. pose proof FLC as (RAW & NN & FV & LV).
  assert (EQ : write_all (before ++ c :: after) (b1 ++ b :: b3) ++ [SClose it]
               = write_all before b1 ++ [SColumn (fst c) (map CWrite b ++ [CClose])] ++ write_all after b3 ++ [SClose it]).
  { rewrite write_all_app by exact L1. rewrite <- app_assoc. reflexivity. }
  assert (EQ1 : write_all (before ++ [c]) (b1 ++ b :: b3) = write_all before b1 ++ [SColumn (fst c) (map CWrite b ++ [CClose])]).
  { rewrite write_all_app by exact L1. unfold write_all at 2. cbn [combine map]. destruct b3; reflexivity. }
  rewrite EQ in R, OO. rewrite EQ1.
  destruct (C45_block_index d p w base info w1 sg _ _ _ _ _ _ _ _ M ID NW OO R A) as (earlier & bks & wi & sgi & rsi & file' & E1 & E2 & E3 & E4 & E5 & E6).
  rewrite DD in E4. injection E4 as <-. exists earlier, wi, sgi, rsi. split; [exact E1|]. split; [exact E3|]. intros r.
  pose proof (delimits_read _ _ FOK _ _ E6) as G. rewrite E5.
  rewrite (file_row_is p _ _ _ bks) by (apply Forall2_map_r in G; exact G).
  apply alone_found; [exact FV|exact LV|]. rewrite (raw_blocks p (fst c) (alone (snd c)) b bks RAW) in E2 by (rewrite NN; apply alone_fill; exact FC).
  rewrite NN in E2. exact E2.
Qed.
Print Assumptions C96_large_values.

(** Two columns of the same name; the values of the second begin at byte 291. *)
Definition ee_cols : list (column_info * list (list N)) :=
  [(ex_a, [repeat 1%N 130; repeat 2%N 140]); (ex_a, [repeat 3%N 300; repeat 4%N 128; repeat 5%N 129])].
Definition ee_bufs (c : column_info * list (list N)) : list bin_buf := match bb_fill false (alone (snd c)) with Ret b => b | _ => [] end.
Example C96_witness :
  0 < wd_max ex_world /\ is_id (si_segment_id ex_info) /\ all_succeed ex_world /\ Forall large_column ee_cols /\ orders_ok [SClose ex_it]
  /\ Forall2 in_buffers ee_cols (map ee_bufs ee_cols)
  /\ match run_from Debug ex_world ex_base ex_info (write_all ee_cols (map ee_bufs ee_cols) ++ [SClose ex_it]),
           run_from Debug ex_world ex_base ex_info (write_all ee_cols (map ee_bufs ee_cols)),
           segment_blocks Debug (write_all (firstn 1 ee_cols) (map ee_bufs ee_cols)) with
     | Some (w2, _, rs), Some (_, sgi, _), Ret earlier =>
         all_ok rs /\ 13 + length (concat (map snd earlier)) = 291
         /\ match directory_after (fun _ => None) (wd_log w2) (data_path ex_base (si_segment_id ex_info)) with
            | Some file =>
                file_ok file
                /\ map (file_row Debug file 291 (bi_row_id (sg_block_index sgi)) (bi_offset (sg_block_index sgi))) [0; 1; 2; 3]%N
                  = [Some (repeat 3%N 300); Some (repeat 4%N 128); Some (repeat 5%N 129); None]
            | None => False end
     | _, _, _ => False end.
Proof.
  split; [cbn; lia|]. split; [split; [reflexivity|repeat constructor]|]. split; [constructor|].
  split.
  { repeat (apply Forall_cons; [split; [reflexivity|]; split; [reflexivity|]; split; [|cbn; discriminate]; repeat (apply Forall_cons; [split; [vm_compute; discriminate|vm_compute; reflexivity]|]); apply Forall_nil|]). apply Forall_nil. }
  split; [apply Forall_cons; [|apply Forall_nil]; split; intros l; cbn; [apply Permutation.Permutation_rev|apply Permutation.Permutation_refl]|].
  split; [repeat (apply Forall2_cons; [repeat (apply Forall2_cons; [vm_compute; reflexivity|]); apply Forall2_nil|]); apply Forall2_nil|].
  vm_compute. repeat (split; [repeat constructor|]). reflexivity.
Qed.
