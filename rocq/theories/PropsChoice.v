(** C52: the encoder chosen for a column is the one asked for (encoding/mod.rs). *)
From Verif Require Import Base Buffers Sink PrimEnc BinEnc ObserveEnc Metadata Segment SpecSegment SegmentProofs.
Open Scope nat_scope.

(** What an encoder writes for some buffers when the sink accepts everything. *)
Definition blocks_from (p : profile) (sz : nat) (e : prim_enc) (bufs : list (prim_buf N)) : outcome (list (N * list N) * result unit) :=
  let* r := pe_finish collect p sz e bufs [] in
  let '(_, blocks, res) := r in Ret (blocks, res).

(** Fixed-width columns: the blocks are those of a column with the given block
    size and nullability, which C27 to C32 are about. *)
Theorem C52_chosen_fixed_width : forall p sz enc size nullable bufs e,
  new_i32_encoder enc size nullable = Ok e \/ new_i64_encoder enc size nullable = Ok e
  \/ new_u64_encoder enc size nullable = Ok e \/ new_f64_encoder enc size nullable = Ok e ->
  enc = Raw /\ blocks_from p sz e bufs = pe_column p sz size nullable bufs.
Proof.
  intros p sz enc size nullable bufs e H. unfold new_i32_encoder, new_i64_encoder, new_u64_encoder, new_f64_encoder in H.
  destruct enc; [|destruct H as [H|[H|[H|H]]]; discriminate H..]. split; [reflexivity|]. destruct H as [H|[H|[H|H]]]; injection H as <-; reflexivity.
Qed.
Print Assumptions C52_chosen_fixed_width.

(** A raw column of a segment: its blocks are those of a binary column with the
    block size of segments, 128, and the given nullability, which C33 to C37 are
    about. *)
Theorem C52_chosen_binary : forall p ci bufs, ci_encoding ci = Raw ->
  column_blocks p ci (map CWrite bufs ++ [CClose]) = (let* r := be_column p 128 (ci_nullable ci) bufs in Ret (fst r)).
Proof.
  intros p ci bufs E. unfold column_blocks, be_column, be_finish. rewrite E. cbn [new_binary_encoder].
  generalize (be_new 128 (ci_nullable ci)) as e, (@nil (N * list N)) as acc. induction bufs as [|b bufs IH]; intros e acc; cbn [map app encoder_run be_encodes].
  - cbn [bind]. unfold bin_flush. destruct (be_flush collect p e acc) as [[[e1 acc1] res]|k|]; reflexivity.
  - unfold bin_encode. destruct (be_encode collect p (length (bb_offsets b)) e b acc) as [[[e1 acc1] res]|k|] eqn:W; cbn [bind]; [|reflexivity..].
    destruct (SegmentProofs.be_encode_back collect p _ _ _ _ _ _ _ W) as (bl & -> & _ & _). rewrite IH. reflexivity.
Qed.
Print Assumptions C52_chosen_binary.

Example C52_chosen_witness :
  column_blocks Debug (mkcinfo [97]%N TString Raw NoIndex true) (map CWrite [mk_bin [1; 2]%N [0; 2]%N (Some (mk_bitmap [1]%N 1))] ++ [CClose])
    = Ret [(0, [2; 1; 2; 2; 2; 3; 1])]%N
  /\ column_blocks Debug (mkcinfo [97]%N TString Raw NoIndex false) (map CWrite [mk_bin [1; 2]%N [0; 2]%N None] ++ [CClose])
    = Ret [(0, [2; 1; 2; 2; 2])]%N.
Proof. vm_compute. split; reflexivity. Qed.
