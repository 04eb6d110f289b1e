(** Properties C87 and C88 when panics are caught: the same columns again, in the same
    or in another order (segment_writer.rs). *)
From Coq Require Import Permutation.
From Verif Require Import Base Buffers Sink PrimEnc BinEnc Io SpecIo IoProofs PropsIo Metadata Proto SpecProto ProtoProofs ReadBlock BlockProofs Names PropsNames Segment SpecSegment
  SegmentProofs SegmentRunProofs PropsSegment PropsSegmentEx PropsIndexErr PropsCrash PropsRepeat Cancel PropsCancel PropsCancelCol Caught PropsCaughtSeg.
Open Scope nat_scope.

(** Somewhere, some time, these columns were written to a new segment, going on after
    panics; no call reported an error; the calls ended like this, and the segment was
    closed and left these files. *)
Definition wrote_anyway (p : profile) (info : segment_info) (cols : list (column_info * list col_op)) (outs : list (list (outcome (result unit)))) (data index : list N) : Prop :=
  exists d w base w1 sg w2 sg2 it w3 sg3,
    0 < wd_max w /\ is_id (si_segment_id info) /\ segment_new w base info = (w1, Ok sg)
    /\ caught_columns p w1 sg cols = (w2, sg2, outs) /\ Forall none_reported outs
    /\ ((forall l, Permutation l (it_columns it l)) /\ (forall l, Permutation l (it_layouts it l))) /\ segment_close w2 sg2 it = (w3, sg3, Ok tt)
    /\ directory_after d (wd_log w3) (data_path base (si_segment_id info)) = Some data
    /\ directory_after d (wd_log w3) (index_path base (si_segment_id info)) = Some index.

(** Two index files say the same. *)
Definition say_same (index index' : list N) : Prop :=
  exists s lays s' lays', read_index_file index = Some (mkmeta (Some s) lays) /\ read_index_file index' = Some (mkmeta (Some s') lays')
    /\ sm_segment_id s' = sm_segment_id s /\ sm_database_name s' = sm_database_name s /\ sm_table_name s' = sm_table_name s
    /\ sm_shard_id s' = sm_shard_id s /\ sm_num_rows s' = sm_num_rows s
    /\ same_map (sm_columns_meta s) (sm_columns_meta s') /\ same_map lays lays'.

Lemma wrote_anyway_is p info cols outs data index : wrote_anyway p info cols outs data index ->
  outs = map (fun c => snd (column_alone p c)) cols
  /\ data = [77; 69; 69; 82; 75; 65; 84; 95; 68; 65; 84; 65; 49]%N ++ concat (map snd (blocks_of_columns p cols))
  /\ exists m, meta_ok info (closed_anyway p cols) m /\ index = index_file_signature ++ encode_metadata m ++ le_bytes 8 12.
Proof.
  intros (d & w & base & w1 & sg & w2 & sg2 & it & w3 & sg3 & M & ID & NW & R & A & O & C & DA & DX). destruct (C49_distinct base _ _ ID ID) as (_ & _ & NE).
  pose proof (segment_new_ok d p _ _ _ _ _ M ID NW) as (blocks & index0 & B & MK & (SD & SI & PD & PI & MO)). injection B as <-.
  destruct (caught_columns_ok d p _ _ info NE cols _ _ _ _ _ _ _ _ SD SI MO R A) as (O1 & SD2 & SI2 & EI & M2 & B2).
  destruct (close_anywhere d _ _ info _ _ _ _ _ _ _ _ NE SD2 SI2 M2 O C) as (m & MO3 & DI & DD & _).
  split; [exact O1|]. split; [rewrite DA in DD; apply some_inv in DD; exact DD|]. exists m. split; [exact MO3|]. rewrite DX in DI. apply some_inv in DI.
  assert (I0 : index0 = []) by (cbn [outline flat_map fold_left] in MK; assert (E := f_equal snd MK); cbn [snd] in E; apply (app_inv_head index_file_signature); rewrite app_nil_r; symmetry; exact E).
  rewrite EI, PI, I0, app_nil_r in DI. exact DI.
Qed.

Lemma closed_anyway_in p cols ci : In ci (closed_anyway p cols) -> exists cops, In (ci, cops) cols.
Proof.
  unfold closed_anyway. rewrite <- flat_map_concat_map. intros I. apply in_flat_map in I. destruct I as ([c cops] & I & J). cbn [fst snd] in J.
  assert (G : forall ops outs, In ci (returned_closes c ops outs) -> ci = c).
  { clear. induction ops as [|op ops IH]; intros [|o outs] J; cbn [returned_closes] in J; try contradiction.
    destruct op as [b|]; [exact (IH _ J)|]. destruct o as [[[]|]|k|]; [destruct J as [J|J]; [congruence|exact (IH _ J)]|exact (IH _ J)..]. }
  apply G in J. subst c. exists cops. exact I.
Qed.

Lemma closed_anyway_unique p cols : different_names cols -> forall a b, In a (closed_anyway p cols) -> In b (closed_anyway p cols) -> ci_name a = ci_name b -> a = b.
Proof.
  intros ND a b A B E. apply closed_anyway_in in A, B. destruct A as (ca & A), B as (cb & B).
  assert (X : (a, ca) = (b, cb)); [|congruence]. unfold different_names in ND.
  clear - ND A B E. induction cols as [|c cols IH]; [contradiction|]. cbn [map] in ND. inversion ND as [|? ? N1 N2]; subst.
  destruct A as [->|A], B as [->|B].
  - reflexivity.
  - exfalso. apply N1. cbn [fst]. rewrite E. apply (in_map (fun c => ci_name (fst c)) _ _ B).
  - exfalso. apply N1. cbn [fst]. rewrite <- E. apply (in_map (fun c => ci_name (fst c)) _ _ A).
  - auto.
Qed.

Lemma closed_anyway_perm p cols cols' : Permutation cols cols' -> Permutation (closed_anyway p cols) (closed_anyway p cols').
Proof. intros PE. unfold closed_anyway. rewrite <- !flat_map_concat_map. apply Permutation_flat_map, PE. Qed.

Lemma blocks_of_columns_perm p cols cols' : Permutation cols cols' -> Permutation (blocks_of_columns p cols) (blocks_of_columns p cols').
Proof. intros PE. unfold blocks_of_columns. rewrite <- !flat_map_concat_map. apply Permutation_flat_map, PE. Qed.

Lemma describes_anyway {A} (f : column_info -> A) p cols cols' m : Permutation cols cols' -> different_names cols ->
  describes f (closed_anyway p cols') m -> describes f (closed_anyway p cols) m.
Proof.
  intros PE ND [N1 D]. split; [exact N1|]. intros name. rewrite D. f_equal.
  assert (ND' : different_names cols') by (unfold different_names in *; eapply Permutation_NoDup; [|exact ND]; apply Permutation_map, PE).
  assert (I : forall ci, In ci (closed_anyway p cols) <-> In ci (closed_anyway p cols')).
  { intros ci. split; intros X; (eapply Permutation_in; [|exact X]); [|apply Permutation_sym]; apply closed_anyway_perm, PE. }
  destruct (last_named name (closed_anyway p cols')) as [ci|] eqn:L'.
  - apply last_named_in in L'; [|apply closed_anyway_unique, ND']. symmetry. apply last_named_in; [apply closed_anyway_unique, ND|]. rewrite I. exact L'.
  - destruct (last_named name (closed_anyway p cols)) as [ci|] eqn:L; [|reflexivity].
    apply last_named_in in L; [|apply closed_anyway_unique, ND]. rewrite I in L. apply last_named_in in L; [|apply closed_anyway_unique, ND']. congruence.
Qed.

Lemma index_readable info closed m index : meta_ok info closed m -> index = index_file_signature ++ encode_metadata m ++ le_bytes 8 12 ->
  (N.of_nat (length index) < 18446744073709551616)%N -> read_index_file index = Some m.
Proof.
  intros MO -> SZ. pose proof (read_off_by index_file_signature (encode_metadata m) 0 eq_refl (le_n _)) as R.
  change (N.of_nat (length index_file_signature + 0)) with 12%N in R. rewrite R; [cbn [Nat.leb skipn]; eapply meta_ok_readable, MO|].
  rewrite !app_length, le_length in SZ. rewrite Nat.add_0_r. clear -SZ. lia.
Qed.

(** C87 and C88, with panics: columns of different names written twice, in any two
    orders, on any two machines, while panics are caught.  In both, every call ends
    in the same way, the files have the same lengths, every column has the same bytes
    where the columns before it end, and the index files say the same. *)
Theorem C88_caught : forall p info cols cols' outs outs' data index data' index',
  Permutation cols cols' -> different_names cols ->
  wrote_anyway p info cols outs data index -> wrote_anyway p info cols' outs' data' index' ->
  length data' = length data /\ length index' = length index
  /\ ((N.of_nat (length index) < 18446744073709551616)%N -> say_same index index')
  /\ (forall before c after before' after', cols = before ++ c :: after -> cols' = before' ++ c :: after' ->
      exists ends bytes at1 at2, nth_error outs (length before) = Some ends /\ nth_error outs' (length before') = Some ends
        /\ at1 = 13 + length (concat (map snd (blocks_of_columns p before))) /\ at2 = 13 + length (concat (map snd (blocks_of_columns p before')))
        /\ bytes = concat (map snd (fst (column_alone p c)))
        /\ firstn (length bytes) (skipn at1 data) = bytes /\ firstn (length bytes) (skipn at2 data') = bytes).
Proof.
  intros p info cols cols' outs outs' data index data' index' PE ND W W'.
  destruct (wrote_anyway_is _ _ _ _ _ _ W) as (EO & ED & m & MO & EI). destruct (wrote_anyway_is _ _ _ _ _ _ W') as (EO' & ED' & m' & MO' & EI').
  assert (L : length index' = length index).
  { rewrite EI, EI', !app_length. f_equal. f_equal. destruct MO as (c & l & -> & DC & DL), MO' as (c' & l' & -> & DC' & DL').
    apply (describes_anyway _ _ _ _ _ PE ND) in DC', DL'. apply metadata_length; apply same_map_perm; eapply describes_same; eassumption. }
  split; [|split; [exact L|split]].
  - rewrite ED, ED', !app_length. f_equal. symmetry. apply bytes_in_perm, blocks_of_columns_perm, PE.
  - intros SZ. assert (SZ' := SZ). rewrite <- L in SZ'. pose proof (index_readable _ _ _ _ MO EI SZ) as R1. pose proof (index_readable _ _ _ _ MO' EI' SZ') as R2.
    destruct MO as (c & l & -> & DC & DL), MO' as (c' & l' & -> & DC' & DL'). apply (describes_anyway _ _ _ _ _ PE ND) in DC', DL'.
    eexists _, l, _, l'. split; [exact R1|]. split; [exact R2|]. cbn [sm_segment_id sm_database_name sm_table_name sm_shard_id sm_num_rows sm_columns_meta].
    do 5 (split; [reflexivity|]). split; eapply describes_same; eassumption.
  - intros before c after before' after' E1 E2. exists (snd (column_alone p c)). do 3 eexists.
    assert (NT : forall x y, nth_error (map (fun c => snd (column_alone p c)) (x ++ c :: y)) (length x) = Some (snd (column_alone p c))).
    { intros x y. rewrite map_app, nth_error_app2; rewrite map_length; [rewrite Nat.sub_diag; reflexivity|apply le_n]. }
    split; [rewrite EO, E1; apply NT|]. split; [rewrite EO', E2; apply NT|]. split; [reflexivity|]. split; [reflexivity|]. split; [reflexivity|].
    assert (CUT : forall (sig e bl mo : list BinNums.N), length sig = 13 -> firstn (length bl) (skipn (13 + length e) (sig ++ e ++ bl ++ mo)) = bl).
    { intros sig' x y z HS. rewrite <- HS, <- app_length, app_assoc, skipn_app, skipn_all, Nat.sub_diag. cbn [app skipn].
      rewrite firstn_app, firstn_all, Nat.sub_diag. cbn [firstn]. apply app_nil_r. }
    assert (SP : forall x y, concat (map snd (blocks_of_columns p (x ++ c :: y))) = concat (map snd (blocks_of_columns p x)) ++ concat (map snd (fst (column_alone p c))) ++ concat (map snd (blocks_of_columns p y))).
    { intros x y. unfold blocks_of_columns. rewrite map_app, concat_app. cbn [map concat]. rewrite !map_app, !concat_app. reflexivity. }
    split; [rewrite ED, E1, SP|rewrite ED', E2, SP]; apply CUT; reflexivity.
Qed.
Print Assumptions C88_caught.

(** In the same order the data files are the same, and the calls end in the same way,
    whatever the names of the columns; the index files say the same. *)
Theorem C87_caught_partial : forall p info cols outs outs' data index data' index',
  wrote_anyway p info cols outs data index -> wrote_anyway p info cols outs' data' index' ->
  outs' = outs /\ data' = data /\ length index' = length index /\ ((N.of_nat (length index) < 18446744073709551616)%N -> say_same index index').
Proof.
  intros p info cols outs outs' data index data' index' W W'.
  destruct (wrote_anyway_is _ _ _ _ _ _ W) as (EO & ED & m & MO & EI). destruct (wrote_anyway_is _ _ _ _ _ _ W') as (EO' & ED' & m' & MO' & EI').
  assert (L : length index' = length index).
  { rewrite EI, EI', !app_length. f_equal. f_equal. destruct MO as (c & l & -> & DC & DL), MO' as (c' & l' & -> & DC' & DL').
    apply metadata_length; apply same_map_perm; eapply describes_same; eassumption. }
  split; [congruence|]. split; [congruence|]. split; [exact L|].
  intros SZ. assert (SZ' := SZ). rewrite <- L in SZ'. pose proof (index_readable _ _ _ _ MO EI SZ) as R1. pose proof (index_readable _ _ _ _ MO' EI' SZ') as R2.
  destruct MO as (c & l & -> & DC & DL), MO' as (c' & l' & -> & DC' & DL').
  eexists _, l, _, l'. split; [exact R1|]. split; [exact R2|]. cbn [sm_segment_id sm_database_name sm_table_name sm_shard_id sm_num_rows sm_columns_meta].
  do 5 (split; [reflexivity|]). split; eapply describes_same; eassumption.
Qed.
Print Assumptions C87_caught_partial.

(** The columns of [C103_witness], in which the second one panics, and the same ones
    with the last one first, on a machine that writes five bytes at a time. *)
Definition run_anyway (w : world) (cols : list (column_info * list col_op)) : option (list (list (outcome (result unit))) * result unit * option (list N) * option (list N)) :=
  match segment_new w ex_base ex_info with
  | (w1, Ok sg) =>
      let '(w2, sg2, outs) := caught_columns Debug w1 sg cols in
      let '(w3, sg3, r) := segment_close w2 sg2 ex_it in
      Some (outs, r, directory_after (fun _ => None) (wd_log w3) (data_path ex_base (si_segment_id ex_info)), directory_after (fun _ => None) (wd_log w3) (index_path ex_base (si_segment_id ex_info)))
  | _ => None
  end.

Lemma run_anyway_wrote w cols outs data index : 0 < wd_max w -> run_anyway w cols = Some (outs, Ok tt, Some data, Some index) -> Forall none_reported outs -> wrote_anyway Debug ex_info cols outs data index.
Proof.
  intros M R A. unfold run_anyway in R. destruct (segment_new w ex_base ex_info) as [w1 [sg|]] eqn:NW; [|discriminate R]. destruct (caught_columns Debug w1 sg cols) as [[w2 sg2] o] eqn:CC.
  destruct (segment_close w2 sg2 ex_it) as [[w3 sg3] r] eqn:SC. injection R as <- -> R1 R2.
  exists (fun _ => None), w, ex_base, w1, sg, w2, sg2, ex_it, w3, sg3. split; [exact M|]. split; [apply ex_id|]. split; [exact NW|]. split; [exact CC|]. split; [exact A|].
  split; [split; intros l; cbn; [apply Permutation_rev|apply Permutation_refl]|]. split; [exact SC|]. split; [exact R1|exact R2].
Qed.

Example C88_caught_example : exists outs outs' data index data' index',
  Permutation ex_caught (rev ex_caught) /\ different_names ex_caught
  /\ wrote_anyway Debug ex_info ex_caught outs data index /\ wrote_anyway Debug ex_info (rev ex_caught) outs' data' index'
  /\ nth 2 (nth 1 outs []) (Ret Err) = Panic PAssert /\ data' <> data /\ (N.of_nat (length index) < 18446744073709551616)%N.
Proof.
  destruct (run_anyway ex_world ex_caught) as [[[[o1 r1] d1] i1]|] eqn:E1; [|vm_compute in E1; discriminate].
  destruct (run_anyway (mkworld [] [] 5) (rev ex_caught)) as [[[[o2 r2] d2] i2]|] eqn:E2; [|vm_compute in E2; discriminate].
  vm_compute in E1. vm_compute in E2.
  assert (X1 := E1). assert (X2 := E2). injection X1 as <- <- <- <-. injection X2 as <- <- <- <-.
  do 6 eexists. split; [apply Permutation_rev|]. split; [unfold different_names; vm_compute; repeat constructor; cbn; intuition discriminate|].
  split; [apply (run_anyway_wrote ex_world); [cbn; lia|vm_compute; reflexivity|repeat constructor; discriminate]|].
  split; [apply (run_anyway_wrote (mkworld [] [] 5)); [cbn; lia|vm_compute; reflexivity|repeat constructor; discriminate]|].
  split; [reflexivity|]. split; [discriminate|vm_compute; reflexivity].
Qed.

Example C87_caught_example : exists outs data index,
  wrote_anyway Debug ex_info ex_caught outs data index /\ nth 2 (nth 1 outs []) (Ret Err) = Panic PAssert /\ length data = 13 + length (concat (map snd (blocks_of_columns Debug ex_caught)))
  /\ run_anyway ex_world ex_caught = Some (outs, Ok tt, Some data, Some index) /\ run_anyway (mkworld [] [] 5) ex_caught = Some (outs, Ok tt, Some data, Some index).
Proof.
  destruct (run_anyway ex_world ex_caught) as [[[[o1 r1] d1] i1]|] eqn:E1; [|vm_compute in E1; discriminate].
  vm_compute in E1. assert (X1 := E1). injection X1 as <- <- <- <-.
  do 3 eexists. split; [apply (run_anyway_wrote ex_world); [cbn; lia|vm_compute; reflexivity|repeat constructor; discriminate]|].
  split; [reflexivity|]. split; [vm_compute; reflexivity|]. split; [reflexivity|vm_compute; reflexivity].
Qed.
