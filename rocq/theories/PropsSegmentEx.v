(** A segment written, to show that the theorems of PropsSegment.v say something
    about it. *)
From Verif Require Import Base Buffers Sink BinEnc Io SpecIo Metadata Proto SpecProto ReadBlock Names PropsNames Segment SpecSegment
  SegmentRunProofs PropsSegment.
From Coq Require Import Permutation.
Open Scope nat_scope.

Definition ex_world : world := mkworld [] [] 50.
Definition ex_base : path := [100; 98]%N.
Definition ex_info : segment_info :=
  mksinfo [1; 2; 3; 4; 5; 6; 7; 8; 9; 10; 11; 12; 13; 14; 15; 255]%N [100]%N [116]%N 3 1000.
Definition ex_it : iteration := mkiter (@rev _) (fun l => l).
Definition ex_a : column_info := mkcinfo [97]%N TString Raw NoIndex false.
Definition ex_b : column_info := mkcinfo [98]%N TGuid Snappy FullText true.
Definition ex_a2 : column_info := mkcinfo [97]%N TString Raw NoIndex true.

(** Four items of 44 bytes. *)
Definition ex_buf : bin_buf := mk_bin (repeat 7%N 176) [0; 44; 88; 132; 176]%N None.

Definition ex_ops : list seg_op :=
  [SColumn ex_a [CWrite ex_buf; CClose]; SColumn ex_b [CWrite ex_buf; CWrite ex_buf; CClose]; SClose ex_it; SColumn ex_a2 [CClose]].

Definition run_from (p : profile) (w : world) (base : path) (info : segment_info) (ops : list seg_op) : option (world * segment * list (result unit)) :=
  match segment_new w base info with
  | (w1, Ok sg) => match seg_run p w1 sg ops with Ret r => Some r | _ => None end
  | (_, Err) => None
  end.

Definition file_after {A} (f : path) (r : option (world * segment * A)) : option (list N) :=
  match r with Some (w, _, _) => directory_after (fun _ => None) (wd_log w) f | None => None end.

(** The hypotheses can be met, with several columns, closed and re-added. *)
Theorem C45_witness :
  exists w1 sg w2 sg2 rs blocks,
    0 < wd_max ex_world /\ is_id (si_segment_id ex_info) /\ segment_new ex_world ex_base ex_info = (w1, Ok sg)
    /\ orders_ok (ex_ops ++ [SClose ex_it]) /\ seg_run Debug w1 sg (ex_ops ++ [SClose ex_it]) = Ret (w2, sg2, rs) /\ all_ok rs
    /\ segment_blocks Debug ex_ops = Ret blocks /\ map (fun b => length (snd b)) blocks = [138; 47; 6; 6]
    /\ file_after (data_path ex_base (si_segment_id ex_info)) (run_from Debug ex_world ex_base ex_info (ex_ops ++ [SClose ex_it]))
       = Some ([77; 69; 69; 82; 75; 65; 84; 95; 68; 65; 84; 65; 49]%N ++ concat (map snd blocks)).
Proof.
  destruct (segment_blocks Debug ex_ops) as [blocks|k|] eqn:B; [|vm_compute in B; discriminate..].
  destruct (C45_no_false_alarm Debug ex_world ex_base ex_info (ex_ops ++ [SClose ex_it]) blocks) as (w1 & sg & w2 & sg2 & rs & N & R & A & _).
  - cbn. lia.
  - split; [reflexivity|]. repeat constructor.
  - constructor.
  - unfold supported, ex_ops. cbn [app]. repeat (apply Forall_cons; [cbn; auto|]). constructor.
  - rewrite SegmentRunProofs.segment_blocks_app, B. cbn. rewrite app_nil_r. reflexivity.
  - exists w1, sg, w2, sg2, rs, blocks. split; [cbn; lia|]. split; [split; [reflexivity|repeat constructor]|]. split; [exact N|].
    split; [repeat constructor; intros l; cbn; try apply Permutation_rev; apply Permutation_refl|]. split; [exact R|]. split; [exact A|]. split; [reflexivity|].
    apply (f_equal (fun r => match r with Ret b => b | _ => [] end)) in B. cbn beta iota in B. subst blocks. split; [vm_compute; reflexivity|].
    vm_compute. reflexivity.
Qed.
Print Assumptions C45_witness.

(** The index file has 204 bytes; the metadata of the second close starts after
    the 107 bytes that the signature and the first take. *)
Theorem C46_witness :
  exists file,
    file_after (index_path ex_base (si_segment_id ex_info)) (run_from Debug ex_world ex_base ex_info (ex_ops ++ [SClose ex_it])) = Some file
    /\ length file = 204 /\ le_value (skipn 196 file) = 107%N /\ read_metadata (firstn 89 (skipn 107 file)) <> None
    /\ (N.of_nat (length file) < 18446744073709551616)%N.
Proof.
  destruct (file_after _ _) as [file|] eqn:E; [|vm_compute in E; discriminate].
  apply (f_equal (fun r => match r with Some b => b | _ => [] end)) in E. cbn beta iota in E. subst file.
  eexists. split; [reflexivity|]. split; [vm_compute; reflexivity|]. split; [vm_compute; reflexivity|].
  split; [vm_compute; discriminate|]. vm_compute. reflexivity.
Qed.
Print Assumptions C46_witness.

(** Column "a" was closed twice; what is read back is the second, nullable one,
    and "b". *)
Theorem C47_witness :
  exists file s lays,
    file_after (index_path ex_base (si_segment_id ex_info)) (run_from Debug ex_world ex_base ex_info (ex_ops ++ [SClose ex_it])) = Some file
    /\ read_index_file file = Some (mkmeta (Some s) lays)
    /\ sm_segment_id s = si_segment_id ex_info /\ sm_num_rows s = 1000%N /\ sm_shard_id s = 3%N
    /\ map (fun e => (fst e, cm_nullable (snd e), cm_encoding (snd e), cm_index_type (snd e))) (sm_columns_meta s)
       = [([98]%N, true, 4%N, 1%N); ([97]%N, true, 0%N, 0%N)]
    /\ map (fun e => (fst e, cl_encoder (snd e))) lays = [([97]%N, Some EPlain); ([98]%N, Some ESnappy)].
Proof.
  destruct (file_after _ _) as [file|] eqn:E; [|vm_compute in E; discriminate].
  apply (f_equal (fun r => match r with Some b => b | _ => [] end)) in E. cbn beta iota in E.
  destruct (read_index_file file) as [[[s|] lays]|] eqn:R; subst file; [|vm_compute in R; discriminate..].
  vm_compute in R. injection R as <- <-. eexists _, _, _. split; [reflexivity|]. split; [vm_compute; reflexivity|]. repeat split.
Qed.
Print Assumptions C47_witness.

(** In it, column "a" was closed, then again with other properties. *)
Theorem C51_witness :
  closed_columns ex_ops = [ex_a; ex_b] ++ ex_a2 :: [] /\ ci_name ex_a = ci_name ex_a2 /\ ci_nullable ex_a <> ci_nullable ex_a2
  /\ ci_name ex_b <> ci_name ex_a2.
Proof. repeat split; discriminate. Qed.
Print Assumptions C51_witness.
