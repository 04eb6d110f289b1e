(** An encoder sees of a sink only which blocks are accepted.  Hence every run
    with any sink is a run with one that accepts the same blocks by a plan. *)
From Verif Require Import Base BaseProofs Buffers Sink BinEnc Segment SpecSegment SpecFail PropsBinFail.
Open Scope nat_scope.

(** A computation that offers blocks and goes on according to the answers. *)
Inductive tree (A : Type) :=
| TDone (a : A)
| TPanic (k : panic_kind)
| TNoFuel
| TOffer (row_id : N) (block : list N) (next : result unit -> tree A).
Arguments TDone {A}.
Arguments TPanic {A}.
Arguments TNoFuel {A}.
Arguments TOffer {A}.

Fixpoint interp {S A} (wr : sink_fn S) (t : tree A) (s : S) : outcome (A * S) :=
  match t with
  | TDone a => Ret (a, s)
  | TPanic k => Panic k
  | TNoFuel => NoFuel
  | TOffer r b next => interp wr (next (snd (wr s r b))) (fst (wr s r b))
  end.

Fixpoint tbind {A B} (t : tree A) (f : A -> tree B) : tree B :=
  match t with
  | TDone a => f a
  | TPanic k => TPanic k
  | TNoFuel => TNoFuel
  | TOffer r b next => TOffer r b (fun x => tbind (next x) f)
  end.

Lemma interp_bind {S A B} (wr : sink_fn S) (t : tree A) (f : A -> tree B) : forall s,
  interp wr (tbind t f) s = let* r := interp wr t s in interp wr (f (fst r)) (snd r).
Proof. induction t as [a|k| |r b next IH]; intros s; cbn [tbind interp bind]; auto. Qed.

(** * The encoder of binary columns as trees *)
Section Trees.
Variable p : profile.

(** A step that offers no block. *)
Definition of_outcome {A B} (m : outcome A) (f : A -> tree B) : tree B :=
  match m with Ret a => f a | Panic k => TPanic k | NoFuel => TNoFuel end.

(** As [be_write].
    src/store/encoding/raw/binary_enc.rs:61-84. *)
Definition write_tree (e : bin_enc) (buf : bin_buf) (c : bin_chunk) (bit_pos : nat) : tree (bin_enc * result nat) :=
  of_outcome (encode_binary_buffer p buf c bit_pos (be_bitmap e)) (fun r =>
    let '(encoded, rle, (num_rows, last_validity_pos)) := r in
    of_outcome (be_add_rows (be_rows e) num_rows) (fun rows =>
      of_outcome (sub32 p rows 1) (fun row_id =>
        TOffer row_id encoded (fun x => TDone (mk_benc (be_remaining e) encoded rle (be_min e) rows,
          match x with Ok _ => Ok last_validity_pos | Err => Err end))))).

(** As [be_write_remaining].
    src/store/encoding/raw/binary_enc.rs:86-112. *)
Definition remaining_tree (e : bin_enc) : tree (bin_enc * result nat) :=
  let offsets := bb_offsets (be_remaining e) in
  of_outcome (idx offsets (length offsets - 1)) (fun end_offset =>
    write_tree e (be_remaining e) (mk_bchunk 0 (length offsets - 1) 0 end_offset end_offset (N.of_nat (bb_len (be_remaining e)))) 0).

(** As [be_loop].
    src/store/encoding/raw/binary_enc.rs:147-159. *)
Fixpoint loop_tree (fuel : nat) (e : bin_enc) (buffer : bin_buf) (buf_pos validity_pos : nat) : tree (bin_enc * result unit) :=
  match fuel with
  | O => TNoFuel
  | Datatypes.S fuel' =>
      if buf_pos <? length (bb_offsets buffer) then
        of_outcome (be_chunk p buffer buf_pos (be_min e)) (fun c =>
          if (bc_size c <? be_min e)%N then
            of_outcome (bb_append_from p (be_remaining e) buffer (bc_start c) (bc_end c) validity_pos) (fun r => TDone (be_set_remaining e (fst r), Ok tt))
          else
            tbind (write_tree e buffer c validity_pos) (fun er =>
              match snd er with
              | Ok lv => loop_tree fuel' (fst er) buffer (bc_end c) lv
              | Err => TDone (fst er, Err)
              end))
      else TDone (e, Ok tt)
  end.

(** As [be_encode].
    src/store/encoding/raw/binary_enc.rs:124-162. *)
Definition encode_tree (fuel : nat) (e : bin_enc) (buffer : bin_buf) : tree (bin_enc * result unit) :=
  if 0 <? bb_len (be_remaining e) then
    of_outcome (sub64 p (be_min e) (N.of_nat (length (bb_data (be_remaining e))))) (fun want =>
      of_outcome (be_chunk p buffer 0 want) (fun c =>
        of_outcome (bb_append_from p (be_remaining e) buffer (bc_start c) (bc_end c) 0) (fun r =>
          let e := be_set_remaining e (fst r) in
          if (N.of_nat (length (bb_data (be_remaining e))) <? be_min e)%N then TDone (e, Ok tt)
          else
            tbind (remaining_tree e) (fun er =>
              match snd er with
              | Ok _ => loop_tree fuel (be_set_remaining (fst er) (bb_clear (be_remaining (fst er)))) buffer (bc_end c) (snd r)
              | Err => TDone (fst er, Err)
              end))))
  else loop_tree fuel e buffer 0 0.

(** As [be_flush].
    src/store/encoding/raw/binary_enc.rs:164-170. *)
Definition flush_tree (e : bin_enc) : tree (bin_enc * result unit) :=
  if 0 <? bb_len (be_remaining e) then
    tbind (remaining_tree e) (fun er => TDone (fst er, match snd er with Ok _ => Ok tt | Err => Err end))
  else TDone (e, Ok tt).

Fixpoint calls_tree (e : bin_enc) (calls : list (option bin_buf)) : tree (bin_enc * list (result unit)) :=
  match calls with
  | [] => TDone (e, [])
  | c :: rest =>
      tbind (match c with Some b => encode_tree (length (bb_offsets b)) e b | None => flush_tree e end) (fun er =>
        tbind (calls_tree (fst er) rest) (fun er' => TDone (fst er', snd er :: snd er')))
  end.

Definition runs {S E R} (wr : sink_fn S) (t : tree (E * R)) (s : S) : outcome (E * S * R) :=
  let* x := interp wr t s in Ret (fst (fst x), snd x, snd (fst x)).

Context {S : Type} (wr : sink_fn S).

Lemma runs_outcome {A E R} (m : outcome A) (f : A -> tree (E * R)) s : runs wr (of_outcome m f) s = let* a := m in runs wr (f a) s.
Proof. destruct m; reflexivity. Qed.

Lemma runs_bind {E R E' R'} (t : tree (E * R)) (f : E * R -> tree (E' * R')) s :
  runs wr (tbind t f) s = let* x := runs wr t s in let '(e, s, r) := x in runs wr (f (e, r)) s.
Proof. unfold runs. rewrite interp_bind. destruct (interp wr t s) as [[[e r] s1]|k|]; reflexivity. Qed.

Lemma bind_ext {A B} (m : outcome A) (f g : A -> outcome B) : (forall a, f a = g a) -> bind m f = bind m g.
Proof. intros H. destruct m; cbn [bind]; auto. Qed.

Lemma write_runs e buf c bp s : be_write wr p e buf c bp s = runs wr (write_tree e buf c bp) s.
Proof.
  unfold be_write, write_tree. rewrite runs_outcome. apply bind_ext. intros [[enc rle] [n lv]]. rewrite runs_outcome. apply bind_ext. intros rows.
  rewrite runs_outcome. apply bind_ext. intros row_id. reflexivity.
Qed.

Lemma remaining_runs e s : be_write_remaining wr p e s = runs wr (remaining_tree e) s.
Proof. unfold be_write_remaining, remaining_tree. rewrite runs_outcome. apply bind_ext. intros o. apply write_runs. Qed.

Lemma loop_runs fuel : forall e buf bpos vp s, be_loop wr p fuel e buf bpos vp s = runs wr (loop_tree fuel e buf bpos vp) s.
Proof.
  induction fuel as [|fuel IH]; intros e buf bpos vp s; cbn [be_loop loop_tree]; [reflexivity|].
  destruct (bpos <? length (bb_offsets buf)); [|reflexivity]. rewrite runs_outcome. apply bind_ext. intros c.
  destruct (bc_size c <? be_min e)%N.
  - rewrite runs_outcome. apply bind_ext. reflexivity.
  - rewrite runs_bind, <- write_runs. apply bind_ext. intros [[e1 s1] [lv|]]; cbn [fst snd]; [apply IH|reflexivity].
Qed.

Lemma encode_runs fuel e buf s : be_encode wr p fuel e buf s = runs wr (encode_tree fuel e buf) s.
Proof.
  unfold be_encode, encode_tree. destruct (0 <? bb_len (be_remaining e)); [|apply loop_runs].
  cbn zeta. rewrite runs_outcome. apply bind_ext. intros want. rewrite runs_outcome. apply bind_ext. intros c. rewrite runs_outcome. apply bind_ext. intros r.
  destruct (_ <? _)%N; [reflexivity|]. rewrite runs_bind, <- remaining_runs. apply bind_ext. intros [[e1 s1] [lv|]]; cbn [fst snd]; [apply loop_runs|reflexivity].
Qed.

Lemma flush_runs e s : be_flush wr p e s = runs wr (flush_tree e) s.
Proof.
  unfold be_flush, flush_tree. destruct (0 <? bb_len (be_remaining e)); [|reflexivity].
  rewrite runs_bind, <- remaining_runs. apply bind_ext. intros [[e1 s1] r]. reflexivity.
Qed.

Lemma calls_runs calls : forall e s, be_calls wr p e calls s = runs wr (calls_tree e calls) s.
Proof.
  induction calls as [|c calls IH]; intros e s; cbn [be_calls calls_tree]; [reflexivity|].
  rewrite runs_bind. assert (H : match c with Some b => be_encode wr p (length (bb_offsets b)) e b s | None => be_flush wr p e s end
    = runs wr (match c with Some b => encode_tree (length (bb_offsets b)) e b | None => flush_tree e end) s) by (destruct c; [apply encode_runs|apply flush_runs]).
  rewrite <- H. apply bind_ext. intros [[e1 s1] r1]. rewrite runs_bind, IH. apply bind_ext. intros [[e2 s2] r2]. reflexivity.
Qed.
End Trees.

(** * Replaying a run by a plan *)

(** Blocks offered in turn with the answers. *)
Definition offered : Type := list (N * list N * bool).

Fixpoint fed {S} (wr : sink_fn S) (s : S) (os : offered) : S * list bool :=
  match os with
  | [] => (s, [])
  | (r, b, _) :: rest =>
      let x := wr s r b in
      let y := fed wr (fst x) rest in
      (fst y, (match snd x with Ok _ => true | Err => false end) :: snd y)
  end.

Definition answers (os : offered) : list bool := map snd os.
Definition taken (os : offered) : list (N * list N) := map fst (filter snd os).

Lemma replay {S A} (wr : sink_fn S) (t : tree A) : forall s, exists os, forall more acc,
  snd (fed wr s os) = answers os
  /\ interp scripted t (answers os ++ more, acc)
     = match interp wr t s with
       | Ret (a, _) => Ret (a, (more, acc ++ taken os))
       | Panic k => Panic k
       | NoFuel => NoFuel
       end
  /\ (forall a s', interp wr t s = Ret (a, s') -> s' = fst (fed wr s os)).
Proof.
  induction t as [a|k| |r b next IH]; intros s.
  - exists []. intros more acc. cbn. rewrite app_nil_r. split; [reflexivity|]. split; [reflexivity|]. intros a' s' [= <- <-]. reflexivity.
  - exists []. intros more acc. cbn. split; [reflexivity|]. split; [reflexivity|]. discriminate.
  - exists []. intros more acc. cbn. split; [reflexivity|]. split; [reflexivity|]. discriminate.
  - cbn [interp]. destruct (wr s r b) as [s1 x] eqn:W. cbn [fst snd].
    assert (X : x = verdict (match x with Ok _ => true | Err => false end)) by (destruct x as [[]|]; reflexivity).
    destruct (IH x s1) as (os & H). exists ((r, b, match x with Ok _ => true | Err => false end) :: os). intros more acc.
    specialize (H more (if (match x with Ok _ => true | Err => false end) then acc ++ [(r, b)] else acc)). destruct H as (H1 & H2 & H3).
    cbn [fed answers map snd fst]. rewrite W. cbn [fst snd]. split; [unfold answers in H1; rewrite H1; reflexivity|]. split; [|exact H3].
    cbn [app]. destruct x as [[]|]; cbn [scripted fst snd tl answers map] in *; unfold answers in H2; rewrite H2; destruct (interp wr _ s1) as [[a s2]|k|]; try reflexivity.
    unfold taken. cbn [filter snd map fst]. rewrite <- app_assoc. reflexivity.
Qed.
