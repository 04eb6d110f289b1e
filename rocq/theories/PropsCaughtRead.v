(** Property C107: the data file of a closed segment can be read, whatever panicked,
    if the number of items in each block is known (segment_writer.rs,
    raw/binary_enc.rs). *)
From Verif Require Import Base BaseProofs Spec SpecRows SpecBin SpecFail Varint Buffers Observe BuffersProofs Sink PrimEnc BinEnc ReadBlock ReadBinBlock ObserveEnc RowsProofs
  BlockProofs BinBlockProofs BinEncProofs BinRunProofs PropsBin PropsBinRows Io SpecIo Metadata Proto SpecProto Names PropsNames Segment SpecSegment SegmentProofs
  PropsSegment PropsSegmentEx PropsApart Cancel PropsCancel PropsCancelCol Caught PropsCaughtBuf PropsCaughtEnc PropsCaughtSeg PropsCaughtBin PropsCaughtFile.
From Coq Require Import Permutation.
Open Scope nat_scope.

(** The bytes of the blocks of all columns, and what would have to be known of
    each: with or without validity, and the number of items. *)
Definition blocks_bytes (blocks : list (bool * list (N * bin_item))) : list (list N) :=
  flat_map (fun c => map (fun a => bin_block (fst c) (it_rows (snd a)) (it_extra (snd a))) (snd c)) blocks.
Definition block_shapes (blocks : list (bool * list (N * bin_item))) : list (bool * nat) :=
  flat_map (fun c => map (fun a => (fst c, length (somes (it_rows (snd a))))) (snd c)) blocks.

Lemma sound_layout p nl n m (a : N * bin_item) : sound_item nl n m (snd a) -> num_vals (it_rows (snd a)) <= 128 -> (N.of_nat n <= 2 ^ 32 - 8)%N -> (N.of_nat m < 2 ^ 32 - 1)%N ->
  forall rest, block_end p nl (length (somes (it_rows (snd a)))) (bin_block nl (it_rows (snd a)) (it_extra (snd a)) ++ rest)
    = Some (length (bin_block nl (it_rows (snd a)) (it_extra (snd a)))).
Proof.
  intros (H1 & H2 & H3 & H4 & H5) H6 HN HM rest. change (2 ^ 32 - 8)%N with 4294967288%N in HN. change (2 ^ 32 - 1)%N with 4294967295%N in HM.
  pose proof (nonempty_num (it_rows (snd a)) H1 H2) as NP.
  apply (block_end_ok p nl _ (it_extra (snd a))); [|exact H1|exact H2|change (2 ^ 32 - 8)%N with 4294967288%N; lia|change (2 ^ 32)%N with 4294967296%N; unfold bytes_of in H5; lia].
  apply bin_block_layout; [lia|change (2 ^ 32)%N with 4294967296%N; lia|unfold u64_lim; lia].
Qed.

Lemma apart_items p nl n m l : sound_blocks nl n m l -> (N.of_nat n <= 2 ^ 32 - 8)%N -> (N.of_nat m < 2 ^ 32 - 1)%N -> forall more rest,
  take_apart p (map (fun a => (nl, length (somes (it_rows (snd a))))) l ++ more) (concat (map (fun a => bin_block nl (it_rows (snd a)) (it_extra (snd a))) l) ++ rest)
  = map (fun a => bin_block nl (it_rows (snd a)) (it_extra (snd a))) l ++ take_apart p more rest.
Proof.
  intros HS HN HM more rest. induction HS as [|a l [S1 S2] _ IH]; [reflexivity|]. cbn [map app concat take_apart]. rewrite <- app_assoc.
  rewrite (sound_layout p nl n m a S1 S2 HN HM). rewrite firstn_app_exact, skipn_app_exact, IH. reflexivity.
Qed.

(** C107, reading: the columns have at most 2^32 - 8 rows.  The data file is then
    taken apart again into exactly its blocks, given their numbers of items; and
    every block whose data does not go on ([it_extra], C38) and whose lengths can be
    read (C24) is read back as its rows.  Every block has 1 to 128 values and ends
    with one. *)
Theorem C107_read : forall d p w base info w1 sg cols rows w2 sg2 outs it w3 sg3,
  0 < wd_max w -> is_id (si_segment_id info) -> segment_new w base info = (w1, Ok sg) ->
  Forall2 column_given cols rows -> Forall (fun bs : list (list row) => N.of_nat (length (concat bs)) <= 2 ^ 32 - 8)%N rows ->
  caught_columns p w1 sg (map column_calls cols) = (w2, sg2, outs) -> Forall none_reported outs ->
  (forall l, Permutation l (it_columns it l)) /\ (forall l, Permutation l (it_layouts it l)) -> segment_close w2 sg2 it = (w3, sg3, Ok tt) ->
  exists blocks file, contents cols rows outs blocks
    /\ directory_after d (wd_log w3) (data_path base (si_segment_id info)) = Some file
    /\ take_apart p (block_shapes blocks) (skipn 13 file) = blocks_bytes blocks
    /\ Forall (fun c => Forall (fun a => let R := it_rows (snd a) in
         1 <= length (somes R) <= 128 /\ ends_some R
         /\ (it_extra (snd a) = [] -> lens_readable (somes R) -> read_binary_block p (fst c) (length (somes R)) (bin_block (fst c) R []) = Ret (Ok R))) (snd c)) blocks.
Proof.
  intros d p w base info w1 sg cols rows w2 sg2 outs it w3 sg3 M ID NW HC HL R A O C.
  destruct (data_file d p w base info w1 sg cols rows w2 sg2 outs it w3 sg3 M ID NW HC R A O C) as (_ & blocks & CC & SS & DD).
  exists blocks. eexists. split; [exact CC|]. split; [exact DD|]. clear DD CC C O A R.
  assert (HM : Forall (fun bs : list (list row) => N.of_nat (bytes_of (concat bs)) < 2 ^ 32 - 1)%N rows) by (clear -HC; induction HC as [|c bs cols rows (_ & _ & _ & H) _ IH]; constructor; assumption).
  clear -SS HL HM. unfold block_shapes, blocks_bytes.
  match goal with |- context [skipn 13 (?x ++ ?y)] => replace (skipn 13 (x ++ y)) with y by reflexivity end.
  induction SS as [|bs [nl l] rows blocks S1 SS IH]; [split; [reflexivity|constructor]|].
  apply Forall_cons_iff in HL. destruct HL as [HL1 HL]. apply Forall_cons_iff in HM. destruct HM as [HM1 HM]. destruct (IH HL HM) as [I1 I2]. cbn [fst snd] in S1. split.
  - cbn [flat_map map concat fst snd]. rewrite (apart_items p nl _ _ l S1 HL1 HM1), I1. reflexivity.
  - constructor; [|exact I2]. cbn [fst snd]. eapply Forall_impl; [|exact S1]. intros a ((H1 & H2 & H3 & H4 & H5) & H6). cbn zeta.
    pose proof (nonempty_num (it_rows (snd a)) H1 H2) as NP. split; [split; [exact NP|exact H6]|]. split; [exact H1|]. intros HX HR.
    change (2 ^ 32 - 8)%N with 4294967288%N in HL1. change (2 ^ 32 - 1)%N with 4294967295%N in HM1.
    apply read_bin_block; [exact H3|exact H1|split; [exact NP|exact H6]|change (2 ^ 32 - 8)%N with 4294967288%N; lia|unfold u64_lim; lia|exact HR].
Qed.
Print Assumptions C107_read.

(** The segment of [C107_example], of which one close panicked. *)
Example C107_read_example :
  Forall (fun bs : list (list row) => N.of_nat (length (concat bs)) <= 2 ^ 32 - 8)%N (map snd some_columns)
  /\ match segment_new ex_world ex_base ex_info with
     | (w1, Ok sg) =>
         let '(w2, sg2, outs) := caught_columns Debug w1 sg (map column_calls given_columns) in
         let '(w3, sg3, r) := segment_close w2 sg2 ex_it in
         match directory_after (fun _ => None) (wd_log w3) (data_path ex_base (si_segment_id ex_info)) with
         | Some file => map (fun b => length b) (take_apart Debug [(false, 2); (false, 1); (true, 2)] (skipn 13 file)) = [134; 4; 8]
             /\ map (read_binary_block Debug false 1) (firstn 1 (skipn 1 (take_apart Debug [(false, 2); (false, 1); (true, 2)] (skipn 13 file))))
                = [Ret (Ok [Some [4%N]])]
         | None => False
         end
     | _ => False
     end.
Proof.
  split; [|vm_compute; repeat split].
  constructor; [vm_compute; discriminate|]. constructor; [vm_compute; discriminate|]. constructor; [vm_compute; discriminate|constructor].
Qed.
