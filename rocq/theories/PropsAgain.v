(** C59 and C62, with every case; C48 and C53 on a run. *)
From Verif Require Import Base BaseProofs Spec SpecRows SpecBin Varint VarintProofs Buffers Observe BitmapProofs BuffersProofs
  Rle RleProofs RleTrackProofs Offsets OffsetsProofs PropsOffsets Sink PrimEnc BinEnc ObserveEnc ReadBlock ReadBinBlock RowsProofs BlockProofs PrimEncProofs PrimRunProofs
  PropsPrim PropsPrimRows PropsPrimIds PropsRle BinBlockProofs BinEncProofs BinRunProofs PropsBin PropsBinRows PropsBinExact PropsBinPending
  Io SpecIo IoProofs IoReadProofs PropsIo Metadata SpecProto Names PropsNames Segment SpecSegment SegmentProofs SegmentRunProofs PropsSegment PropsSegmentEx PropsSegmentRef PropsResume IoStreamProofs PropsIoBatch PropsIoBatchOk PropsReadBack.
Open Scope nat_scope.

(** * C59 *)

(** Exactly what a second close does, for all columns, all operations before and
    both profiles.  The first close writes one block at most, for [n] rows; the
    second writes the same bytes with a row identifier higher by [n], and panics
    if the row count would pass 2^32-1.  So it writes nothing exactly if the first
    close wrote nothing. *)
Theorem C59_again_exact : forall p ci ops before last,
  column_blocks p ci ops = Ret before -> column_blocks p ci (ops ++ [CClose]) = Ret (before ++ last) ->
  let n := (next_row (before ++ last) - next_row before)%N in
  length last <= 1 /\ (last = [] <-> n = 0%N)
  /\ column_blocks p ci (ops ++ [CClose; CClose])
     = if (next_row (before ++ last) + n <=? u32_max)%N then Ret (before ++ last ++ map (fun b => ((fst b + n)%N, snd b)) last)
       else Panic PExpect.
Proof.
  intros p ci ops before last H1 H2 n. destruct (C95_binary_exact p ci ops [CClose] before last H1 H2) as (L & Z & X). fold n in Z, X.
  split; [exact L|]. split; [exact Z|]. rewrite H2 in X. destruct X as (after & EA & X). apply app_inv_head in EA. subst after.
  change (ops ++ [CClose; CClose]) with (ops ++ [CClose] ++ [CClose]). destruct (_ <=? u32_max)%N; exact X.
Qed.
Print Assumptions C59_again_exact.

(** Four strings of 44, 44, 44 and 44 bytes: three fill a block and the last is
    held back.  Each close writes it, with identifiers 3, 4 and 5. *)
Example C59_witness :
  match column_blocks Debug ex_a [CWrite ex_buf], column_blocks Debug ex_a [CWrite ex_buf; CClose],
        column_blocks Debug ex_a [CWrite ex_buf; CClose; CClose], column_blocks Debug ex_a [CWrite ex_buf; CClose; CClose; CClose] with
  | Ret before, Ret once, Ret twice, Ret thrice =>
      map fst before = [2]%N /\ map fst once = [2; 3]%N /\ map fst twice = [2; 3; 4]%N /\ map fst thrice = [2; 3; 4; 5]%N
      /\ nth 1 (map snd twice) [] = nth 2 (map snd twice) [] /\ nth 1 (map snd twice) [] <> [] /\ firstn 2 twice = once /\ firstn 3 thrice = twice
  | _, _, _, _ => False
  end.
Proof. vm_compute. repeat split; discriminate. Qed.

(** * C62 *)

Lemma write_from_empty d f w wr b w1 wr1 r : 0 < wd_max w -> tf_path (wr_file wr) = f -> holds d w f [] -> tf_busy (wr_file wr) = None ->
  writer_write_block w wr b = (w1, wr1, r) -> extends f w w1 /\ wd_max w1 = wd_max w /\ exists k, holds d w1 f (firstn k b).
Proof.
  intros M P H B E. unfold writer_write_block in E. destruct (tk_write_all _ _ _ _) as [[a f1] rr] eqn:W. injection E as <- <- <-.
  rewrite <- P in H. destruct (tk_write_all_spec _ _ _ _ _ _ _ _ _ W H (le_n _) M) as (_ & HE & _ & _ & _ & _ & _ & (k & HK & _) & _).
  rewrite P in *. unfold pending in HK. rewrite B in HK. split; [exact HE|]. split; [destruct HE as (HM & _); exact HM|]. exists k. exact HK.
Qed.

(** Whenever both files could be opened and creating the segment still fails,
    nothing of either old file is left: each holds the first bytes of its
    signature at most. *)
Theorem C62_signatures_partial : forall d w base info w1,
  0 < wd_max w -> is_id (si_segment_id info) -> segment_new w base info = (w1, Err) ->
  fst (next_fate w) = None -> fst (next_fate (snd (next_fate w))) = None ->
  (exists k, directory_after d (wd_log w1) (index_path base (si_segment_id info)) = Some (firstn k index_file_signature))
  /\ (exists k, directory_after d (wd_log w1) (data_path base (si_segment_id info)) = Some (firstn k data_file_signature)).
Proof.
  intros d w base info w1 M ID N F1 F2. destruct (C49_distinct base _ _ ID ID) as (_ & _ & NE). unfold segment_new in N.
  destruct (writer_new w _) as [wa [ix|]] eqn:Na.
  2:{ unfold writer_new, tk_create in Na. destruct (next_fate w) as [[k|] w0]; cbn [fst] in F1; congruence. }
  destruct (writer_new wa _) as [wb [dt|]] eqn:Nb.
  2:{ exfalso. unfold writer_new, tk_create in Na. destruct (next_fate w) as [[k|] w0]; cbn [fst snd] in F1, F2; [discriminate|]. injection Na as <- _.
      unfold writer_new, tk_create in Nb. destruct w0 as [lg [|[k|] l] mx]; cbn in F2, Nb; congruence. }
  destruct (writer_new_touches d _ _ _ _ M Na) as (_ & Ma & (_ & Pa & _) & _ & Ha & Ba).
  destruct (writer_new_touches d wa _ _ _ ltac:(lia) Nb) as (Tb & Mb & (_ & Pb & _) & _ & Hb & Bb).
  unfold write_headers in N. cbn [sg_index sg_data sg_block_index sg_meta] in N.
  destruct (writer_write_block wb ix index_file_signature) as [[wc ic] rc] eqn:Wc.
  assert (Hi : holds d wb (index_path base (si_segment_id info)) []).
  { unfold holds in *. rewrite (touches_dir _ d _ _ _ Tb); [exact Ha|congruence]. }
  destruct (write_from_empty d _ wb _ _ _ _ _ ltac:(lia) Pa Hi Ba Wc) as (Xc & Mc & k & Hk).
  assert (Hd : holds d wc (data_path base (si_segment_id info)) []) by (eapply holds_other; [exact Xc|congruence|exact Hb]).
  destruct rc as [[]|].
  - destruct (writer_write_block wc dt data_file_signature) as [[we de] re] eqn:We.
    destruct (write_from_empty d _ wc _ _ _ _ _ ltac:(lia) Pb Hd Bb We) as (Xe & _ & j & Hj). injection N as <- _.
    split; [|exists j; exact Hj]. exists k. eapply holds_other; [exact Xe|congruence|exact Hk].
  - injection N as <-. split; [exists k; exact Hk|]. exists 0. exact Hd.
Qed.
Print Assumptions C62_signatures_partial.

(** Old files [1 2 3] and [4 5]: the three ways to fail.  The index file cannot be
    opened; the data file cannot; with chunks of five bytes, both can, and the
    second chunk of the index signature stops after one byte; with chunks of ten
    bytes, it is the first chunk of the other signature that stops. *)
Example C62_witness :
  let ip := index_path ex_base (si_segment_id ex_info) in let dp := data_path ex_base (si_segment_id ex_info) in
  let d f := if path_dec f ip then Some [1; 2; 3]%N else if path_dec f dp then Some [4; 5]%N else None in
  let try plan max := let '(w, r) := segment_new (mkworld [] plan max) ex_base ex_info in
                      (match r with Ok _ => true | Err => false end, directory_after d (wd_log w) ip, directory_after d (wd_log w) dp) in
  try [Some 0] 50 = (false, Some [1; 2; 3], Some [4; 5])%N
  /\ try [None; Some 0] 50 = (false, Some [], Some [4; 5])%N
  /\ try [None; None; None; Some 1] 5 = (false, Some (firstn 6 index_file_signature), Some [])
  /\ try [None; None; None; Some 2] 10 = (false, Some (firstn 10 index_file_signature), Some (firstn 2 data_file_signature)).
Proof. vm_compute. repeat split. Qed.

(** * C48 and C53 *)

(** Two runs with different data in different columns leave the same index file;
    its layouts give the range from 0 to 0. *)
Example C48_witness :
  let index ops := file_after (index_path ex_base (si_segment_id ex_info)) (run_from Debug ex_world ex_base ex_info (ops ++ [SClose ex_it])) in
  let data ops := file_after (data_path ex_base (si_segment_id ex_info)) (run_from Debug ex_world ex_base ex_info (ops ++ [SClose ex_it])) in
  let third := [SColumn ex_a [CWrite ex_buf; CWrite ex_buf; CClose]; SColumn ex_c [CWrite ex_buf; CClose]] in
  outline ex_first = outline third /\ index ex_first = index third /\ option_map (@length _) (data ex_first) <> option_map (@length _) (data third)
  /\ match index third with
     | Some f => match read_index_file f with
                 | Some m => map (fun l => (fst l, cl_block_index (snd l))) (md_columns_layout m)
                             = [(ci_name ex_a, Some (mkbil (Some (mkrange 0 0)))); (ci_name ex_c, Some (mkbil (Some (mkrange 0 0))))]
                 | None => False end
     | None => False end.
Proof. vm_compute. repeat split; discriminate. Qed.

(** The same files from a snappy column given four strings and one given none. *)
Example C53_witness :
  let run b := run_from Debug ex_world ex_base ex_info [SColumn ex_b [CWrite b; CClose]; SClose ex_it] in
  let data b := file_after (data_path ex_base (si_segment_id ex_info)) (run b) in
  let index b := file_after (index_path ex_base (si_segment_id ex_info)) (run b) in
  data ex_buf = data (bb_new false) /\ index ex_buf = index (bb_new false)
  /\ option_map (firstn 19) (data ex_buf) = Some (data_file_signature ++ [115; 110; 97; 112; 112; 121]%N).
Proof. vm_compute. repeat split. Qed.

(** * C65: all blocks of a column in one batch *)

Lemma delimits_requests file tags : forall blocks from offsets, delimits file from offsets blocks -> length tags = length blocks ->
  let requests := map (fun rt => mkop (fst (fst rt)) (snd (fst rt)) (snd rt)) (combine (block_ranges from offsets) tags) in
  Forall (in_file file) requests
  /\ map (fun op => mkitem (op_tag op) (Ok (range_bytes file op))) requests = map (fun bt => mkitem (snd bt) (Ok (fst bt))) (combine blocks tags).
Proof.
  induction tags as [|t tags IH]; intros [|b blocks] from [|o offsets] D L; cbn [delimits] in D; try contradiction; try discriminate L.
  - split; [constructor|reflexivity].
  - destruct D as (HO & HB & D). cbn [length] in L. specialize (IH blocks o offsets D ltac:(lia)). cbn zeta in IH. destruct IH as [I1 I2].
    unfold block_ranges in *. cbn [combine map fst snd]. split.
    + constructor; [|exact I1]. unfold in_file. cbn [op_start op_end]. lia.
    + f_equal; [|exact I2]. cbn [op_tag]. unfold range_bytes. cbn [op_start op_end]. rewrite HB. reflexivity.
Qed.

(** If no read fails, a batch read of the ranges of a column, which start where
    the blocks written earlier end, delivers every block with its tag, in order,
    under every schedule that comes to its end; and there are such schedules. *)
Theorem C65_batch_complete : forall d p w base info w1 sg ops ci cops more it w2 sg2 rs file,
  0 < wd_max w -> is_id (si_segment_id info) -> segment_new w base info = (w1, Ok sg) ->
  orders_ok (ops ++ [SColumn ci cops] ++ more ++ [SClose it]) ->
  seg_run p w1 sg (ops ++ [SColumn ci cops] ++ more ++ [SClose it]) = Ret (w2, sg2, rs) -> all_ok rs ->
  directory_after d (wd_log w2) (data_path base (si_segment_id info)) = Some file -> file_ok file ->
  exists earlier blocks wi sgi rsi,
    segment_blocks p ops = Ret earlier /\ column_blocks p ci cops = Ret blocks
    /\ seg_run p w1 sg (ops ++ [SColumn ci cops]) = Ret (wi, sgi, rsi)
    /\ forall q tags, length tags = length blocks ->
       let ranges := block_ranges (13 + N.of_nat (length (concat (map snd earlier)))) (bi_offset (sg_block_index sgi)) in
       let requests := map (fun rt => mkop (fst (fst rt)) (snd (fst rt)) (snd rt)) (combine ranges tags) in
       (forall es s polls, Forall harmless es -> stream_run q file (read_blocks requests) es = (s, polls) -> In PEnd polls ->
          map (fun it => (bi_tag it, bi_buf it)) (items_of polls) = combine tags (map (fun b => Ok (snd b)) blocks))
       /\ exists es s polls, Forall harmless es /\ stream_run q file (read_blocks requests) es = (s, polls) /\ In PEnd polls.
Proof.
  intros d p w base info w1 sg ops ci cops more it w2 sg2 rs file M ID NW O H A DF FO.
  destruct (C45_block_index d p w base info w1 sg ops ci cops more it w2 sg2 rs M ID NW O H A)
    as (earlier & blocks & wi & sgi & rsi & file' & SB & CB & R & DF' & _ & DL).
  rewrite DF in DF'. injection DF' as <-. exists earlier, blocks, wi, sgi, rsi. split; [exact SB|]. split; [exact CB|]. split; [exact R|].
  intros q tags LT ranges requests.
  destruct (delimits_requests file tags _ _ _ DL) as [IN RB]; [rewrite map_length; exact LT|]. fold ranges in IN, RB. fold requests in IN, RB. split.
  - intros es s polls HH E X. destruct (C42_good_ranges q _ _ es s polls FO IN HH E) as (_ & K). rewrite (K X), RB, map_map. cbn [bi_tag bi_buf].
    clear -LT. revert blocks LT. induction tags as [|t tags IH]; intros [|b blocks] L; try discriminate L; [reflexivity|].
    cbn [map combine fst snd]. f_equal. apply IH. cbn [length] in L. lia.
  - set (order := map (fun ix => (ix, None) : nat * option (list pread_event)) (seq 0 (length requests))).
    destruct (C42_everything_answered q file requests (fun _ => []) (repeat order (2 * length requests + 1))) as (s & polls & E & X & _).
    + exact FO.
    + unfold file_ok in FO. eapply Forall_impl; [|exact IN]. intros op (A1 & A2). unfold op_ok. change u64_lim with 18446744073709551616%N. lia.
    + apply Forall_forall. intros o O'. apply repeat_spec in O'. subst o. unfold covers, order. intros ix Hix. rewrite map_map. cbn [fst]. rewrite map_id. apply in_seq. lia.
    + rewrite repeat_length. lia.
    + eexists _, s, polls. split; [|split; [exact E|exact X]].
      apply Forall_forall. intros e HE. apply in_concat in HE. destruct HE as (l & Hl & He). apply in_map_iff in Hl. destruct Hl as (o & <- & Ho).
      apply repeat_spec in Ho. subst o. unfold round in He. apply in_app_or in He. destruct He as [He|[<- |[]]].
      * apply in_map_iff in He. destruct He as (ix & <- & _). cbn. tauto.
      * cbn [harmless]. unfold order. apply Forall_forall. intros o Ho. apply in_map_iff in Ho. destruct Ho as (ix & <- & _). exact I.
Qed.
Print Assumptions C65_batch_complete.

(** The run of [C65_witness]: both blocks of the second column, read in the other
    order and in pieces. *)
Example C65_batch_witness :
  match run_from Debug ex_world ex_base ex_info rb_all with
  | Some (w2, _, rs) =>
      all_ok rs /\ segment_blocks Debug rb_ops = Ret [(43243, [115; 110; 97; 112; 112; 121])]%N
      /\ match directory_after (fun _ => None) (wd_log w2) (data_path ex_base (si_segment_id ex_info)) with
         | Some file =>
             let polls := snd (stream_run Debug file (read_blocks [mkop 19 184 (DataBlock 0); mkop 184 210 (DataBlock 1)])
                                 (let both := [(1, None); (0, None)] in [EPoll both; EFinish 1 [PShort 3; PInterrupted]; EPoll both; EFinish 0 [PShort 100]; EPoll both; EPoll both; EPoll both])) in
             map (fun it => (bi_tag it, match bi_buf it with Ok b => length b | Err => 0 end)) (items_of polls) = [(DataBlock 0, 165); (DataBlock 1, 26)]
             /\ last polls PPending = PEnd
         | None => False end
  | None => False end.
Proof. vm_compute. repeat split; repeat constructor. Qed.
