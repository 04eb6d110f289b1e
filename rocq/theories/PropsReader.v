(** C70: reading a segment through a reader of its files. *)
From Verif Require Import Base BaseProofs Buffers Sink BinEnc Io SpecIo IoProofs IoReadProofs PropsIo Reader Metadata Proto SpecProto ReadBlock
  Names PropsNames Segment SpecSegment SegmentProofs SegmentRunProofs PropsSegment PropsSegmentEx PropsSegmentRef PropsReadBack.
From Coq Require Import Permutation.
Open Scope nat_scope.

(** Reading [range] through [r] gives [b], or an error if the system reports
    one. *)
Definition reader_gives (d : directory) (r : reader) (range : N * N) (b : list N) : Prop :=
  forall q plan, reader_read_block q d r plan (fst range) (snd range) = Ret (Ok b)
                 \/ reader_read_block q d r plan (fst range) (snd range) = Ret Err /\ In PFail plan.

(** The length reported is where reading starts to fail. *)
Theorem C70_length : forall of mf d f r s e,
  reader_new of mf d f = Ok r -> (forall file, d f = Some file -> file_ok file) -> (s < e < 18446744073709551616)%N ->
  ((e <= rd_len r)%N -> exists b, N.of_nat (length b) = (e - s)%N /\ reader_gives d r (s, e) b)
  /\ ((rd_len r < e)%N -> forall q plan, reader_read_block q d r plan s e = Ret Err).
Proof.
  intros of mf d f r s e H FO R. unfold reader_new in H. destruct of; [discriminate H|]. destruct (d f) as [file|] eqn:D; [|discriminate H]. destruct mf; [discriminate H|].
  injection H as <-. specialize (FO file eq_refl). cbn [rd_len]. unfold reader_gives, reader_read_block, reader_len. cbn [rd_file fst snd]. rewrite D. split.
  - intros L. exists (firstn (N.to_nat (e - s)) (skipn (N.to_nat s) file)). split; [rewrite firstn_length, skipn_length; lia|]. intros q plan.
    destruct (read_block_spec q file plan s e FO) as (x & -> & HO & HE); [unfold u64_lim; lia..|]. destruct x as [bs|]; [left; destruct (HO bs eq_refl) as (-> & _); reflexivity|].
    right. split; [reflexivity|]. destruct (HE eq_refl) as [X|X]; [lia|exact X].
  - intros L q plan. apply C41_bad_range; [exact FO|unfold u64_lim; lia..].
Qed.
Print Assumptions C70_length.

(** A missing file is reported; an existing one opens unless the system
    complains. *)
Theorem C70_opens : forall d f,
  (d f = None -> forall of mf, reader_new of mf d f = Err) /\ (d f <> None -> exists r, reader_new false false d f = Ok r).
Proof.
  intros d f. unfold reader_new. split; [intros ->; intros [] []; reflexivity|]. intros H. destruct (d f); [eexists; reflexivity|congruence].
Qed.
Print Assumptions C70_opens.

Lemma reads_gives d r file range b : d (rd_file r) = Some file -> reads_as_block file range b -> reader_gives d r range b.
Proof. intros D H q plan. unfold reader_read_block. rewrite D. apply H. Qed.

Lemma Forall2_weaken {A B} (P Q : A -> B -> Prop) l m : (forall a b, P a b -> Q a b) -> Forall2 P l m -> Forall2 Q l m.
Proof. intros I F. induction F; constructor; auto. Qed.

(** A reader opened once a segment is closed finds every block of every column,
    and still does so after anything else was done to the segment. *)
Theorem C70_blocks : forall d p w base info w1 sg ops ci cops more it w2 sg2 rs of mf r later w3 sg3 rs3,
  0 < wd_max w -> is_id (si_segment_id info) -> segment_new w base info = (w1, Ok sg) ->
  orders_ok (ops ++ [SColumn ci cops] ++ more ++ [SClose it]) ->
  seg_run p w1 sg (ops ++ [SColumn ci cops] ++ more ++ [SClose it]) = Ret (w2, sg2, rs) -> all_ok rs ->
  reader_new of mf (directory_after d (wd_log w2)) (data_path base (si_segment_id info)) = Ok r ->
  seg_run p w2 sg2 later = Ret (w3, sg3, rs3) ->
  (forall file, directory_after d (wd_log w3) (data_path base (si_segment_id info)) = Some file -> file_ok file) ->
  exists first blocks wi sgi rsi,
    column_blocks p ci cops = Ret blocks
    /\ seg_run p w1 sg (ops ++ [SColumn ci cops]) = Ret (wi, sgi, rsi)
    /\ Forall2 (fun range block => reader_gives (directory_after d (wd_log w3)) r range (snd block)) (block_ranges first (bi_offset (sg_block_index sgi))) blocks
    /\ Forall (fun o => o <= rd_len r)%N (bi_offset (sg_block_index sgi)).
Proof.
  intros d p w base info w1 sg ops ci cops more it w2 sg2 rs of mf r later w3 sg3 rs3 M ID N O H A RN L FO.
  destruct (C45_block_index d p w base info w1 sg ops ci cops more it w2 sg2 rs M ID N O H A)
    as (earlier & blocks & wi & sgi & rsi & file & _ & CB & R & DF & _ & DL).
  destruct (C66_append_only d p w base info w1 sg _ w2 sg2 rs later w3 sg3 rs3 _ file M ID N H L DF) as ((added & DF3) & _).
  assert (FO3 := FO _ DF3). assert (FOf : file_ok file) by (unfold file_ok in *; rewrite app_length in FO3; lia).
  unfold reader_new in RN. destruct of; [discriminate RN|]. rewrite DF in RN. destruct mf; [discriminate RN|]. injection RN as <-.
  eexists _, blocks, wi, sgi, rsi. split; [exact CB|]. split; [exact R|]. split.
  - assert (D3 : delimits (file ++ added) (13 + N.of_nat (length (concat (map snd earlier)))) (bi_offset (sg_block_index sgi)) (map snd blocks)).
    { revert DL. generalize (bi_offset (sg_block_index sgi)) (13 + N.of_nat (length (concat (map snd earlier))))%N (map snd blocks). clear.
      induction l as [|o l IH]; intros from [|b bs] D; cbn [delimits] in *; try contradiction; [exact I|]. destruct D as ((D1 & D1') & D2 & D3).
      split; [rewrite app_length; lia|]. split; [|apply IH, D3]. rewrite <- D2. rewrite skipn_app, firstn_app, skipn_length.
      replace (N.to_nat o - N.to_nat from - (length file - N.to_nat from)) with 0 by lia. cbn [firstn]. rewrite app_nil_r. reflexivity. }
    apply (Forall2_map_r snd). eapply Forall2_weaken; [|apply (delimits_read _ _ FO3 _ _ D3)]. intros range b X. eapply reads_gives; [exact DF3|exact X].
  - cbn [rd_len]. unfold reader_len. revert DL. generalize (bi_offset (sg_block_index sgi)) (13 + N.of_nat (length (concat (map snd earlier))))%N (map snd blocks). clear.
    induction l as [|o l IH]; intros from [|b bs] D; cbn [delimits] in *; try contradiction; [constructor|]. destruct D as ((D1 & D1') & D2 & D3).
    constructor; [lia|]. eapply IH, D3.
Qed.
Print Assumptions C70_blocks.

(** How the metadata of a segment is found with no more than a reader: the last
    eight bytes tell where it starts. *)
Lemma index_through_reader file m : read_index_file file = Some m -> file_ok file ->
  exists footer bytes, reads_as_block file (reader_len file - 8, reader_len file)%N footer
    /\ reads_as_block file (le_value footer, reader_len file - 8)%N bytes /\ read_metadata bytes = Some m.
Proof.
  intros H FO. unfold read_index_file in H. set (n := length file) in *. set (footer := skipn (n - 8) file) in *. set (pos := N.to_nat (le_value footer)) in *.
  destruct ((20 <=? n) && (12 <=? pos) && (pos <=? n - 8)) eqn:C; [|discriminate H]. apply andb_prop in C. destruct C as [C C3]. apply andb_prop in C. destruct C as [C1 C2].
  apply Nat.leb_le in C1. apply Nat.leb_le in C2. apply Nat.leb_le in C3. destruct (list_eq_dec _ _ _) as [_|]; [|discriminate H].
  exists footer, (firstn (n - 8 - pos) (skipn pos file)). unfold reader_len. fold n. split; [|split; [|exact H]]; intros q plan; cbn [fst snd];
    match goal with |- context [read_block q file plan ?s ?e] => destruct (read_block_spec q file plan s e FO) as (x & -> & HO & HE);
      [unfold file_ok in FO; fold n in FO; unfold u64_lim; lia..|] end; (destruct x as [bs|]; [left; destruct (HO bs eq_refl) as (-> & _); do 2 f_equal|right; split; [reflexivity|];
      destruct (HE eq_refl) as [X|X]; [fold n in X; lia|exact X]]).
  - replace (N.to_nat (N.of_nat n - 8)) with (n - 8) by lia. fold footer. apply firstn_all2. unfold footer. rewrite skipn_length. fold n. lia.
  - f_equal; lia.
Qed.

Theorem C70_metadata : forall d p w base info w1 sg ops it w2 sg2 rs of mf r,
  0 < wd_max w -> is_id (si_segment_id info) -> segment_new w base info = (w1, Ok sg) ->
  orders_ok (ops ++ [SClose it]) -> seg_run p w1 sg (ops ++ [SClose it]) = Ret (w2, sg2, rs) -> all_ok rs ->
  reader_new of mf (directory_after d (wd_log w2)) (index_path base (si_segment_id info)) = Ok r -> (rd_len r < 9223372036854775808)%N ->
  exists footer bytes s lays,
    reader_gives (directory_after d (wd_log w2)) r (rd_len r - 8, rd_len r)%N footer
    /\ reader_gives (directory_after d (wd_log w2)) r (le_value footer, rd_len r - 8)%N bytes
    /\ read_metadata bytes = Some (mkmeta (Some s) lays) /\ sm_segment_id s = si_segment_id info /\ sm_table_name s = si_table_name info
    /\ entries column_entry (closed_columns ops) (sm_columns_meta s).
Proof.
  intros d p w base info w1 sg ops it w2 sg2 rs of mf r M ID N O H A RN LN.
  unfold reader_new in RN. destruct of; [discriminate RN|]. destruct (directory_after d (wd_log w2) (index_path base (si_segment_id info))) as [file|] eqn:D; [|discriminate RN].
  destruct mf; [discriminate RN|]. injection RN as <-. cbn [rd_len] in *. unfold reader_len in LN.
  destruct (C47_round_trip d p w base info w1 sg ops it w2 sg2 rs file M ID N O H A D ltac:(lia)) as (s & lays & RI & S1 & _ & S3 & _ & _ & CE & _).
  destruct (index_through_reader file _ RI LN) as (footer & bytes & R1 & R2 & RM). exists footer, bytes, s, lays.
  repeat split; try assumption; try (eapply reads_gives; [exact D|assumption]); apply CE.
Qed.
Print Assumptions C70_metadata.

(** * Examples *)

(** A segment with one column: its blocks and its metadata, through readers. *)
Theorem C70_witness :
  match run_from Debug ex_world ex_base ex_info [SColumn ex_a [CWrite ex_buf; CClose]; SClose ex_it] with
  | Some (w, sg, _) =>
      let d := directory_after (fun _ => None) (wd_log w) in
      match reader_new false false d (data_path ex_base (si_segment_id ex_info)), reader_new false false d (index_path ex_base (si_segment_id ex_info)) with
      | Ok data, Ok index =>
          (bi_offset (sg_block_index sg), rd_len data) = ([151; 198]%N, 198%N)
          /\ match reader_read_block Debug d data [PShort 10; PInterrupted] 151 198 with Ret (Ok block) => length block = 47 | _ => False end
          /\ reader_read_block Debug d index [] (rd_len index - 8) (rd_len index) = Ret (Ok [12; 0; 0; 0; 0; 0; 0; 0]%N)
          /\ (exists bytes, reader_read_block Debug d index [] 12 (rd_len index - 8) = Ret (Ok bytes) /\ read_metadata bytes <> None)
          /\ reader_read_block Debug d data [] 13 (rd_len data + 1) = Ret Err
      | _, _ => False
      end
  | None => False
  end.
Proof.
  vm_compute. split; [reflexivity|]. split; [reflexivity|]. split; [reflexivity|]. split; [|reflexivity]. eexists. split; [reflexivity|]. discriminate.
Qed.
Print Assumptions C70_witness.
