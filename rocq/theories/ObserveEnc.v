(** Driving the encoders through their public methods.  Used to state
    properties; nothing here models code of /repo. *)
From Verif Require Import Base Spec Buffers Rle Observe Sink PrimEnc BinEnc.
Open Scope nat_scope.

Section Prim.
Context {S : Type} (wr : sink_fn S) (p : profile) (sz : nat).

(** Encoding buffers one after the other, stopping at the first error. *)
Fixpoint pe_encodes (e : prim_enc) (bufs : list (prim_buf N)) (s : S) : outcome (prim_enc * S * result unit) :=
  match bufs with
  | [] => Ret (e, s, Ok tt)
  | b :: rest =>
      let* r := pe_encode wr p sz (Datatypes.S (pb_len b)) e b s in
      let '(e, s, res) := r in
      match res with Ok _ => pe_encodes e rest s | Err => Ret (e, s, Err) end
  end.

(** Encoding buffers and flushing. *)
Definition pe_finish (e : prim_enc) (bufs : list (prim_buf N)) (s : S) : outcome (prim_enc * S * result unit) :=
  let* r := pe_encodes e bufs s in
  let '(e, s, res) := r in
  match res with Ok _ => pe_flush wr p sz e s | Err => Ret (e, s, Err) end.
End Prim.

(** The blocks a new column writes for [bufs], and whether that succeeded. *)
Definition pe_column (p : profile) (sz : nat) (B : N) (nl : bool) (bufs : list (prim_buf N))
  : outcome (list (N * list N) * result unit) :=
  let* r := pe_finish collect p sz (pe_new B nl) bufs [] in
  let '(_, blocks, res) := r in Ret (blocks, res).

(** Buffers filled with the given rows. *)
Fixpoint pb_fill (nl : bool) (rowss : list (list (option N))) : outcome (list (prim_buf N)) :=
  match rowss with
  | [] => Ret []
  | r :: rest =>
      let* b := pb_append_rows (pb_new nl) r in
      let* bs := pb_fill nl rest in Ret (b :: bs)
  end.

(** What a new column writes for the given rows. *)
Definition pe_column_rows (p : profile) (sz : nat) (B : N) (nl : bool) (rowss : list (list (option N)))
  : outcome (list (N * list N) * result unit) :=
  let* bufs := pb_fill nl rowss in pe_column p sz B nl bufs.

(** The same for binary columns. *)
Section Bin.
Context {S : Type} (wr : sink_fn S) (p : profile).

Fixpoint be_encodes (e : bin_enc) (bufs : list bin_buf) (s : S) : outcome (bin_enc * S * result unit) :=
  match bufs with
  | [] => Ret (e, s, Ok tt)
  | b :: rest =>
      let* r := be_encode wr p (length (bb_offsets b)) e b s in
      let '(e, s, res) := r in
      match res with Ok _ => be_encodes e rest s | Err => Ret (e, s, Err) end
  end.

Definition be_finish (e : bin_enc) (bufs : list bin_buf) (s : S) : outcome (bin_enc * S * result unit) :=
  let* r := be_encodes e bufs s in
  let '(e, s, res) := r in
  match res with Ok _ => be_flush wr p e s | Err => Ret (e, s, Err) end.
End Bin.

Definition be_column (p : profile) (B : N) (nl : bool) (bufs : list bin_buf)
  : outcome (list (N * list N) * result unit) :=
  let* r := be_finish collect p (be_new B nl) bufs [] in
  let '(_, blocks, res) := r in Ret (blocks, res).

Fixpoint bb_fill (nl : bool) (rowss : list (list (option (list N)))) : outcome (list bin_buf) :=
  match rowss with
  | [] => Ret []
  | r :: rest =>
      let* b := bb_append_rows (bb_new nl) r in
      let* bs := bb_fill nl rest in Ret (b :: bs)
  end.

Definition be_column_rows (p : profile) (B : N) (nl : bool) (rowss : list (list (option (list N))))
  : outcome (list (N * list N) * result unit) :=
  let* bufs := bb_fill nl rowss in be_column p B nl bufs.
