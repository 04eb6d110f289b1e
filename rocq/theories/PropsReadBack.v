(** C65, C66, C67: reading back what a segment holds, while it is written and
    beside other segments. *)
From Verif Require Import Base BaseProofs Spec SpecRows SpecBin Buffers Observe Sink BinEnc ObserveEnc Io SpecIo IoProofs IoReadProofs PropsIo IoStreamProofs Metadata
  PropsIoBatch ReadBlock ReadBinBlock Names PropsNames Segment SpecSegment SegmentProofs SegmentRunProofs PropsBin PropsBinRows PropsSegment PropsSegmentRef PropsSegmentEx.
From Coq Require Import Permutation.
Open Scope nat_scope.

(** * C65: blocks are where the block index says *)

(** The index has the ends of the blocks; each starts where the one before it
    ends, the first one at [first]. *)
Definition block_ranges (first : N) (offsets : list N) : list (N * N) := combine (first :: offsets) offsets.

(** Reading [range] gives [b], or an error if the system reports one. *)
Definition reads_as_block (file : list N) (range : N * N) (b : list N) : Prop :=
  forall q plan, read_block q file plan (fst range) (snd range) = Ret (Ok b)
                 \/ read_block q file plan (fst range) (snd range) = Ret Err /\ In PFail plan.

Lemma delimits_read file blocks : file_ok file -> forall from offsets, delimits file from offsets blocks ->
  Forall2 (reads_as_block file) (block_ranges from offsets) blocks.
Proof.
  intros F. induction blocks as [|b blocks IH]; intros from [|o offsets] D; cbn [delimits] in D; try contradiction; [constructor|].
  destruct D as (HO & HB & D). unfold block_ranges in *. cbn [combine]. constructor; [|apply IH, D]. intros q plan. cbn [fst snd].
  assert (F' := F). unfold file_ok in F'.
  destruct (read_block_spec q file plan from o F') as (r & E & R1 & R2); [unfold u64_lim; lia..|].
  rewrite E. destruct r as [bs|].
  - left. destruct (R1 bs eq_refl) as (-> & _). rewrite <- HB. f_equal. f_equal. f_equal. lia.
  - right. split; [reflexivity|]. destruct (R2 eq_refl) as [R|R]; [lia|exact R].
Qed.

Lemma Forall2_map_r {A B C} (f : C -> B) (P : A -> B -> Prop) l : forall m, Forall2 P l (map f m) -> Forall2 (fun a c => P a (f c)) l m.
Proof.
  induction l as [|a l IH]; intros [|c m] H; inversion H; subst; constructor; auto.
Qed.

(** After the segment is closed, each block of a column is read from its range,
    in whatever pieces the system delivers it. *)
Theorem C65_read_block : forall d p w base info w1 sg ops ci cops more it w2 sg2 rs file,
  0 < wd_max w -> is_id (si_segment_id info) -> segment_new w base info = (w1, Ok sg) ->
  orders_ok (ops ++ [SColumn ci cops] ++ more ++ [SClose it]) ->
  seg_run p w1 sg (ops ++ [SColumn ci cops] ++ more ++ [SClose it]) = Ret (w2, sg2, rs) -> all_ok rs ->
  directory_after d (wd_log w2) (data_path base (si_segment_id info)) = Some file -> file_ok file ->
  exists first blocks wi sgi rsi,
    column_blocks p ci cops = Ret blocks
    /\ seg_run p w1 sg (ops ++ [SColumn ci cops]) = Ret (wi, sgi, rsi)
    /\ bi_row_id (sg_block_index sgi) = map fst blocks
    /\ Forall2 (fun range block => reads_as_block file range (snd block)) (block_ranges first (bi_offset (sg_block_index sgi))) blocks.
Proof.
  intros d p w base info w1 sg ops ci cops more it w2 sg2 rs file M ID N O H A DF FO.
  destruct (C45_block_index d p w base info w1 sg ops ci cops more it w2 sg2 rs M ID N O H A)
    as (earlier & blocks & wi & sgi & rsi & file' & _ & CB & R & DF' & IDS & DL).
  rewrite DF in DF'. injection DF' as <-. eexists _, blocks, wi, sgi, rsi. split; [exact CB|]. split; [exact R|]. split; [exact IDS|].
  apply Forall2_map_r. apply (delimits_read file _ FO _ _ DL).
Qed.
Print Assumptions C65_read_block.

(** The same for a batch of all ranges: when the stream ends every block has
    been delivered, in order, or an error in its place. *)
Theorem C65_read_blocks : forall d p w base info w1 sg ops ci cops more it w2 sg2 rs file,
  0 < wd_max w -> is_id (si_segment_id info) -> segment_new w base info = (w1, Ok sg) ->
  orders_ok (ops ++ [SColumn ci cops] ++ more ++ [SClose it]) ->
  seg_run p w1 sg (ops ++ [SColumn ci cops] ++ more ++ [SClose it]) = Ret (w2, sg2, rs) -> all_ok rs ->
  directory_after d (wd_log w2) (data_path base (si_segment_id info)) = Some file -> file_ok file ->
  exists first blocks wi sgi rsi,
    column_blocks p ci cops = Ret blocks
    /\ seg_run p w1 sg (ops ++ [SColumn ci cops]) = Ret (wi, sgi, rsi)
    /\ forall q tag es s polls,
         let requests := map (fun range => mkop (fst range) (snd range) tag) (block_ranges first (bi_offset (sg_block_index sgi))) in
         stream_run q file (read_blocks requests) es = (s, polls) -> In PEnd polls ->
         Forall2 (fun block it => bi_buf it = Ok (snd block) \/ bi_buf it = Err) blocks (items_of polls).
Proof.
  intros d p w base info w1 sg ops ci cops more it w2 sg2 rs file M ID N O H A DF FO.
  destruct (C65_read_block d p w base info w1 sg ops ci cops more it w2 sg2 rs file M ID N O H A DF FO)
    as (first & blocks & wi & sgi & rsi & CB & R & _ & G).
  exists first, blocks, wi, sgi, rsi. split; [exact CB|]. split; [exact R|]. intros q tag es s polls requests ST PE.
  pose proof (C42_end_means_all _ _ _ _ _ _ ST PE) as AN. unfold requests in AN. clear -G AN.
  revert G AN. generalize (block_ranges first (bi_offset (sg_block_index sgi))) as l. generalize (items_of polls) as its.
  induction blocks as [|b blocks IH]; intros its [|x l] G AN; inversion G; subst; cbn [map] in AN; inversion AN; subst; constructor.
  - match goal with X : answers _ _ _ _ |- _ => destruct X as (_ & plan & RB) end. cbn [op_start op_end] in RB.
    match goal with X : reads_as_block _ _ _ |- _ => destruct (X q plan) as [E|[E _]]; rewrite RB in E; injection E as -> end; auto.
  - eapply IH; eassumption.
Qed.
Print Assumptions C65_read_blocks.

(** ** Rows *)

Lemma encoder_run_finish p bufs : forall e acc blocks, encoder_run p (RawEnc e) (map CWrite bufs ++ [CClose]) acc = Ret blocks ->
  exists e', be_finish collect p e bufs acc = Ret (e', blocks, Ok tt).
Proof.
  unfold be_finish. induction bufs as [|b bufs IH]; intros e acc blocks H; cbn [map app encoder_run be_encodes bin_encode bin_flush] in *.
  - cbn [bind]. destruct (be_flush collect p e acc) as [[[e1 acc1] res]|k|] eqn:E; cbn [bind] in H; try discriminate. injection H as ->.
    destruct (be_flush_back collect p _ _ _ _ _ E) as (bl & -> & _). exists e1. reflexivity.
  - destruct (be_encode collect p _ e b acc) as [[[e1 acc1] res]|k|] eqn:E; cbn [bind] in H |- *; try discriminate.
    destruct (be_encode_back collect p _ _ _ _ _ _ _ E) as (bl & -> & _). apply IH, H.
Qed.

(** The rows of a raw column without nulls, written in buffers of at most 128
    bytes, are in the blocks at the ranges of the block index; what keeps a
    reader from recovering them is that the lengths of the items may not have
    been stored completely (C24). *)
Theorem C34_rows_in_file_partial : forall d p w base info w1 sg ops ci bufs rowss more it w2 sg2 rs file,
  let cops := map CWrite bufs ++ [CClose] in
  0 < wd_max w -> is_id (si_segment_id info) -> segment_new w base info = (w1, Ok sg) ->
  orders_ok (ops ++ [SColumn ci cops] ++ more ++ [SClose it]) ->
  seg_run p w1 sg (ops ++ [SColumn ci cops] ++ more ++ [SClose it]) = Ret (w2, sg2, rs) -> all_ok rs ->
  directory_after d (wd_log w2) (data_path base (si_segment_id info)) = Some file -> file_ok file ->
  ci_encoding ci = Raw -> bb_fill (ci_nullable ci) rowss = Ret bufs -> Forall full rowss ->
  Forall (fun rows => length (concat (somes rows)) <= 128) rowss -> (N.of_nat (length (concat rowss)) <= 2 ^ 32 - 8)%N ->
  exists first ws wi sgi rsi,
    seg_run p w1 sg (ops ++ [SColumn ci cops]) = Ret (wi, sgi, rsi)
    /\ concat ws = concat rowss
    /\ Forall2 (fun range w => exists block, reads_as_block file range block /\ layout p (ci_nullable ci) w [] block
          /\ (lens_readable (somes w) -> read_binary_block p (ci_nullable ci) (length (somes w)) block = Ret (Ok w)))
         (block_ranges first (bi_offset (sg_block_index sgi))) ws.
Proof.
  intros d p w base info w1 sg ops ci bufs rowss more it w2 sg2 rs file cops M ID N O H A DF FO RAW FILL FU SZ LN.
  destruct (C65_read_block d p w base info w1 sg ops ci cops more it w2 sg2 rs file M ID N O H A DF FO)
    as (first & blocks & wi & sgi & rsi & CB & R & _ & G).
  unfold column_blocks in CB. rewrite RAW in CB. cbn [new_binary_encoder] in CB.
  destruct (encoder_run_finish p bufs _ _ _ CB) as [e' BF].
  assert (BC : be_column_rows p 128 (ci_nullable ci) rowss = Ret (blocks, Ok tt)).
  { unfold be_column_rows. rewrite FILL. cbn [bind]. unfold be_column. rewrite BF. reflexivity. }
  destruct (C34_rows_kept_partial p 128 (ci_nullable ci) rowss blocks (Ok tt)) as (ws & E & F2); [lia|exact FU| |exact LN|exact BC|].
  { eapply Forall_impl; [|exact SZ]. cbn beta. intros rows L. change (2 ^ 32)%N with 4294967296%N. lia. }
  exists first, ws, wi, sgi, rsi. split; [exact R|]. split; [exact E|].
  clear -G F2. revert G F2. generalize (block_ranges first (bi_offset (sg_block_index sgi))) as l. revert ws.
  induction blocks as [|b blocks IH]; intros ws l G F2; inversion G; subst; inversion F2; subst; constructor; [|apply IH; assumption].
  exists (snd b). split; [assumption|assumption].
Qed.
Print Assumptions C34_rows_in_file_partial.

(** ** A segment to which all of this applies *)

Definition rb_rows : list (list (option (list N))) := [[Some (repeat 7%N 100)]; [Some (repeat 8%N 60); Some (repeat 9%N 20)]; [Some [1; 2]%N]].
Definition rb_bufs : list bin_buf := match bb_fill false rb_rows with Ret b => b | _ => [] end.
Definition rb_ops : list seg_op := [SColumn ex_b [CWrite ex_buf]].
Definition rb_all : list seg_op := rb_ops ++ [SColumn ex_a (map CWrite rb_bufs ++ [CClose])] ++ [SColumn ex_a2 [CClose]] ++ [SClose ex_it].

(** The blocks of the second column start after the signature (13 bytes) and the
    block of the first (6). *)
Theorem C65_witness :
  bb_fill false rb_rows = Ret rb_bufs /\ Forall full rb_rows /\ Forall (fun rows => length (concat (somes rows)) <= 128) rb_rows
  /\ orders_ok rb_all
  /\ 0 < wd_max ex_world /\ is_id (si_segment_id ex_info)
  /\ match run_from Debug ex_world ex_base ex_info rb_all,
           run_from Debug ex_world ex_base ex_info (rb_ops ++ [SColumn ex_a (map CWrite rb_bufs ++ [CClose])]) with
     | Some (w2, _, rs), Some (_, sgi, _) =>
         all_ok rs
         /\ block_ranges 19 (bi_offset (sg_block_index sgi)) = [(19, 184); (184, 210)]%N
         /\ bi_row_id (sg_block_index sgi) = [1; 3]%N
         /\ match directory_after (fun _ => None) (wd_log w2) (data_path ex_base (si_segment_id ex_info)) with
            | Some file => file_ok file /\ read_block Debug file [PShort 7; PInterrupted] 184 210
                = Ret (Ok ([22] ++ repeat 9%N 20 ++ [1; 2] ++ [5; 20; 0])%N)
            | None => False end
     | _, _ => False end.
Proof.
  split; [vm_compute; reflexivity|]. split; [repeat constructor|]. split; [repeat constructor; vm_compute; lia|].
  split; [repeat constructor; intros l; cbn; try apply Permutation_rev; apply Permutation_refl|].
  split; [cbn; lia|]. split; [split; [reflexivity|repeat constructor]|].
  vm_compute. repeat (split; [repeat constructor|]). reflexivity.
Qed.
Print Assumptions C65_witness.

(** * C66: what was read once can be read again *)

(** Whatever is done with a segment writer, and whatever fails, no byte in any
    file goes away or changes. *)
Theorem C66_append_only : forall d p w base info w1 sg ops w2 sg2 rs more w3 sg3 rs3 f content,
  0 < wd_max w -> is_id (si_segment_id info) -> segment_new w base info = (w1, Ok sg) ->
  seg_run p w1 sg ops = Ret (w2, sg2, rs) -> seg_run p w2 sg2 more = Ret (w3, sg3, rs3) ->
  directory_after d (wd_log w2) f = Some content ->
  (exists added, directory_after d (wd_log w3) f = Some (content ++ added))
  /\ forall w4 r4, segment_sync w3 sg3 = (w4, r4) -> exists added, directory_after d (wd_log w4) f = Some (content ++ added).
Proof.
  intros d p w base info w1 sg ops w2 sg2 rs more w3 sg3 rs3 f content M ID N R1 R2 D.
  destruct (C49_distinct base _ _ ID ID) as (_ & _ & NE).
  destruct (segment_new_touches d _ _ _ _ _ M ID N) as (_ & B).
  destruct (seg_run_grows d p _ _ NE _ _ _ _ _ _ B R1) as (_ & B2).
  destruct (seg_run_grows d p _ _ NE _ _ _ _ _ _ B2 R2) as (G & B3).
  destruct (grows_dir _ d _ _ f content G D) as [added D3]. split; [exists added; exact D3|].
  intros w4 r4 S4. pose proof (segment_sync_grows d _ _ NE _ _ _ _ B3 S4) as G4.
  destruct (grows_dir _ d _ _ f _ G4 D3) as [added' D4]. exists (added ++ added'). rewrite app_assoc. exact D4.
Qed.
Print Assumptions C66_append_only.

(** So a block that was read from a file that is being written reads the same
    ever after. *)
Theorem C66_reads_stay : forall d p w base info w1 sg ops w2 sg2 rs more w3 sg3 rs3 f file2 file3 q plan s e block,
  0 < wd_max w -> is_id (si_segment_id info) -> segment_new w base info = (w1, Ok sg) ->
  seg_run p w1 sg ops = Ret (w2, sg2, rs) -> seg_run p w2 sg2 more = Ret (w3, sg3, rs3) ->
  directory_after d (wd_log w2) f = Some file2 -> directory_after d (wd_log w3) f = Some file3 -> file_ok file3 ->
  (s < u64_lim)%N -> (e < u64_lim)%N ->
  read_block q file2 plan s e = Ret (Ok block) -> reads_as_block file3 (s, e) block.
Proof.
  intros d p w base info w1 sg ops w2 sg2 rs more w3 sg3 rs3 f file2 file3 q plan s e block M ID N R1 R2 D2 D3 F Hs He RB.
  destruct (C66_append_only d p w base info w1 sg ops w2 sg2 rs more w3 sg3 rs3 f file2 M ID N R1 R2 D2) as ((added & E) & _).
  rewrite D3 in E. injection E as ->. intros q' plan'. cbn [fst snd]. assert (F2 : file_ok file2) by (unfold file_ok in *; rewrite app_length in F; lia).
  destruct (read_block_spec q file2 plan s e F2 Hs He) as (r & E & HO & _). rewrite RB in E. injection E as <-. destruct (HO _ eq_refl) as (EB & RG).
  destruct (read_block_spec q' (file2 ++ added) plan' s e F Hs He) as (r' & E' & HO' & HE'). rewrite E'. destruct r' as [bs|].
  - left. f_equal. f_equal. destruct (HO' _ eq_refl) as (-> & _). rewrite EB. destruct RG as [->|[L1 L2]]; [rewrite N.sub_diag; reflexivity|].
    rewrite skipn_app, firstn_app, skipn_length.
    replace (N.to_nat (e - s) - (length file2 - N.to_nat s)) with 0 by lia. cbn [firstn]. apply app_nil_r.
  - right. split; [reflexivity|]. destruct (HE' eq_refl) as [L|P]; [|exact P]. exfalso. rewrite app_length in L. lia.
Qed.
Print Assumptions C66_reads_stay.

(** The data file after the first and after the second column. *)
Definition rs_ops : list seg_op := [SColumn ex_a [CWrite ex_buf; CClose]; SClose ex_it].
Definition rs_more : list seg_op := [SColumn ex_a [CWrite ex_buf; CClose]; SClose ex_it].

Theorem C66_witness :
  match file_after (data_path ex_base (si_segment_id ex_info)) (run_from Debug ex_world ex_base ex_info rs_ops),
        file_after (data_path ex_base (si_segment_id ex_info)) (run_from Debug ex_world ex_base ex_info (rs_ops ++ rs_more)) with
  | Some file2, Some file3 =>
      length file2 = 198 /\ file_ok file3 /\ firstn 198 file3 = file2 /\ 198 < length file3
      /\ exists block, length block = 138 /\ read_block Debug file2 [] 13 151 = Ret (Ok block) /\ read_block Debug file3 [PShort 9] 13 151 = Ret (Ok block)
  | _, _ => False end.
Proof.
  vm_compute. split; [reflexivity|]. split; [reflexivity|]. split; [reflexivity|]. split; [lia|].
  eexists. split; [|split; reflexivity]. reflexivity.
Qed.
Print Assumptions C66_witness.

(** * C67: segments written at the same time *)

(** [l] has the elements of [a] and [b], each in their order. *)
Inductive interleaved {A} : list A -> list A -> list A -> Prop :=
| iv_nil : interleaved [] [] []
| iv_left x a b l : interleaved a b l -> interleaved (x :: a) b (x :: l)
| iv_right x a b l : interleaved a b l -> interleaved a (x :: b) (x :: l).

Lemma interleaved_sym {A} (a b l : list A) : interleaved a b l -> interleaved b a l.
Proof. induction 1; constructor; assumption. Qed.

Lemma interleaved_dir f a b l : interleaved a b l -> Forall (fun e => event_path e <> f) b ->
  forall d d', d f = d' f -> directory_after d l f = directory_after d' a f.
Proof.
  unfold directory_after. induction 1 as [|x a b l I IH|x a b l I IH]; intros F d d' E; cbn [fold_left]; [exact E| |].
  - apply IH; [exact F|]. destruct x as [g|g bs|g]; cbn [apply_effect]; rewrite ?E; reflexivity.
  - inversion F; subst. apply IH; [assumption|]. rewrite <- E.
    destruct x as [g|g bs|g]; cbn [apply_effect event_path] in *; [| |reflexivity]; (destruct (path_dec f g); [congruence|reflexivity]).
Qed.

(** One segment being created, written and synced: the effects on the file
    system, under any behaviour of the system. *)
Definition segment_effects (p : profile) (w : world) (base : path) (info : segment_info) (ops : list seg_op) (effects : list fs_event) : Prop :=
  wd_log w = [] /\ 0 < wd_max w /\
  exists w1 sg w2 sg2 rs, segment_new w base info = (w1, Ok sg) /\ seg_run p w1 sg ops = Ret (w2, sg2, rs)
    /\ (effects = wd_log w2 \/ exists w3 r, segment_sync w2 sg2 = (w3, r) /\ effects = wd_log w3).

Lemma segment_effects_own p w base info ops effects f : is_id (si_segment_id info) -> segment_effects p w base info ops effects ->
  f <> data_path base (si_segment_id info) -> f <> index_path base (si_segment_id info) -> Forall (fun e => event_path e <> f) effects.
Proof.
  intros ID (L & M & w1 & sg & w2 & sg2 & rs & N & R & E) N1 N2.
  assert (d : directory) by exact (fun _ => None).
  destruct (C49_distinct base _ _ ID ID) as (_ & _ & NE).
  destruct (segment_new_touches d _ _ _ _ _ M ID N) as (T1 & B). cbv zeta in T1.
  destruct (seg_run_touches d p _ _ NE _ _ _ _ _ _ B R) as (T2 & B2).
  assert (T : exists w3, touches (fun g => g = data_path base (si_segment_id info) \/ g = index_path base (si_segment_id info)) w w3 /\ effects = wd_log w3).
  { destruct E as [->|(w3 & r & S3 & ->)]; [exists w2; split; [eapply touches_trans; eassumption|reflexivity]|].
    exists w3. split; [|reflexivity]. eapply touches_trans; [exact T1|]. eapply touches_trans; [exact T2|]. eapply segment_sync_touches; eassumption. }
  destruct T as (w3 & (m & LM & F) & ->). rewrite L in LM. cbn [app] in LM. rewrite LM.
  eapply Forall_impl; [|exact F]. cbn. intros e [H|H] Q; congruence.
Qed.

(** However the effects of writing two segments are mixed, each has the files it
    would have alone. *)
Theorem C67_no_interference : forall d p1 w1 info1 ops1 l1 p2 w2 info2 ops2 l2 base l,
  is_id (si_segment_id info1) -> is_id (si_segment_id info2) -> si_segment_id info1 <> si_segment_id info2 ->
  segment_effects p1 w1 base info1 ops1 l1 -> segment_effects p2 w2 base info2 ops2 l2 -> interleaved l1 l2 l ->
  directory_after d l (data_path base (si_segment_id info1)) = directory_after d l1 (data_path base (si_segment_id info1))
  /\ directory_after d l (index_path base (si_segment_id info1)) = directory_after d l1 (index_path base (si_segment_id info1))
  /\ directory_after d l (data_path base (si_segment_id info2)) = directory_after d l2 (data_path base (si_segment_id info2))
  /\ directory_after d l (index_path base (si_segment_id info2)) = directory_after d l2 (index_path base (si_segment_id info2)).
Proof.
  intros d p1 w1 info1 ops1 l1 p2 w2 info2 ops2 l2 base l ID1 ID2 NE E1 E2 I.
  destruct (C49_distinct base _ _ ID1 ID2) as (D12 & I12 & X12). destruct (C49_distinct base _ _ ID2 ID1) as (D21 & I21 & X21).
  assert (I' := interleaved_sym _ _ _ I).
  split; [|split; [|split]]; (eapply interleaved_dir; [eassumption| |reflexivity]).
  - eapply segment_effects_own; [exact ID2|exact E2| |]; [intros Q; apply NE, D12, Q|exact X12].
  - eapply segment_effects_own; [exact ID2|exact E2| |]; [intros Q; apply X21; symmetry; exact Q|intros Q; apply NE, I12, Q].
  - eapply segment_effects_own; [exact ID1|exact E1| |]; [intros Q; apply NE, D12; symmetry; exact Q|exact X21].
  - eapply segment_effects_own; [exact ID1|exact E1| |]; [intros Q; apply X12; symmetry; exact Q|intros Q; apply NE, I12; symmetry; exact Q].
Qed.
Print Assumptions C67_no_interference.

(** ** Two segments *)

Definition ex_info2 : segment_info :=
  mksinfo [1; 2; 3; 4; 5; 6; 7; 8; 9; 10; 11; 12; 13; 14; 15; 254]%N [100]%N [116]%N 3 1000.
Definition log_of (info : segment_info) (ops : list seg_op) : list fs_event :=
  match run_from Debug ex_world ex_base info ops with Some (w, _, _) => wd_log w | None => [] end.

(** Taking turns. *)
Fixpoint zip {A} (a b : list A) : list A :=
  match a, b with
  | x :: a, y :: b => x :: y :: zip a b
  | [], b => b
  | a, [] => a
  end.

Lemma zip_interleaved {A} (a : list A) : forall b, interleaved a b (zip a b).
Proof.
  induction a as [|x a IH]; intros [|y b]; cbn [zip]; [constructor| | |repeat constructor; apply IH].
  - induction b as [|z b IHb] in y |- *; [repeat constructor|]. constructor. apply IHb.
  - clear IH. induction a as [|z a IHa] in x |- *; [repeat constructor|]. constructor. apply IHa.
Qed.

Theorem C67_witness :
  is_id (si_segment_id ex_info) /\ is_id (si_segment_id ex_info2)
  /\ segment_effects Debug ex_world ex_base ex_info (ex_ops ++ [SClose ex_it]) (log_of ex_info (ex_ops ++ [SClose ex_it]))
  /\ segment_effects Debug ex_world ex_base ex_info2 rs_ops (log_of ex_info2 rs_ops)
  /\ interleaved (log_of ex_info (ex_ops ++ [SClose ex_it])) (log_of ex_info2 rs_ops)
       (zip (log_of ex_info (ex_ops ++ [SClose ex_it])) (log_of ex_info2 rs_ops))
  /\ length (zip (log_of ex_info (ex_ops ++ [SClose ex_it])) (log_of ex_info2 rs_ops)) = 27.
Proof.
  assert (G : forall info ops, log_of info ops <> [] -> segment_effects Debug ex_world ex_base info ops (log_of info ops)).
  { intros info ops. unfold segment_effects, log_of, run_from. destruct (segment_new ex_world ex_base info) as [w1 [sg|]] eqn:N; [|congruence].
    destruct (seg_run Debug w1 sg ops) as [[[w2 sg2] rs]|k|] eqn:R; try congruence. intros _.
    split; [reflexivity|]. split; [cbn; lia|]. exists w1, sg, w2, sg2, rs. auto. }
  split; [split; [reflexivity|repeat constructor]|]. split; [split; [reflexivity|repeat constructor]|].
  split; [apply G; vm_compute; discriminate|]. split; [apply G; vm_compute; discriminate|]. split; [apply zip_interleaved|vm_compute; reflexivity].
Qed.
Print Assumptions C67_witness.

(** The identifiers have to differ: here the second segment is created when the
    first has been closed but not yet synced, and takes its files. *)
Theorem C67_same_id_witness :
  interleaved (log_of ex_info rs_ops) (log_of ex_info [SClose ex_it]) (log_of ex_info rs_ops ++ log_of ex_info [SClose ex_it])
  /\ directory_after (fun _ => None) (log_of ex_info rs_ops ++ log_of ex_info [SClose ex_it]) (data_path ex_base (si_segment_id ex_info))
     = Some data_file_signature
  /\ directory_after (fun _ => None) (log_of ex_info rs_ops) (data_path ex_base (si_segment_id ex_info)) <> Some data_file_signature.
Proof.
  split; [|split; [vm_compute; reflexivity|vm_compute; discriminate]].
  generalize (log_of ex_info rs_ops) as a, (log_of ex_info [SClose ex_it]) as b. induction a as [|x a IH]; intros b; cbn [app]; [|constructor; apply IH].
  induction b as [|y b IH]; constructor. exact IH.
Qed.
Print Assumptions C67_same_id_witness.
