(** C99: the memory a read asks for. *)
From Verif Require Import Base BaseProofs Io SpecIo IoProofs IoReadProofs PropsIo.
Open Scope nat_scope.

(** unix_disk_block_reader.rs:62-71 [Reader::read_block] with an allocator that
    gives buffers of [mem] bytes at most.  The buffer of line 66 is allocated before
    the file is looked at.  If there is no memory for it, the process is aborted:
    [None].  That is not a panic and io/mod.rs:111-123 does not make an error of it.
    A length above [isize::MAX] is refused before the allocator is asked and panics. *)
Definition read_block_mem (mem : N) (p : profile) (file : list N) (plan : list pread_event) (range_start range_end : N)
  : option (outcome (result (list N))) :=
  match sub64 p range_end range_start with
  | Ret buf_len => if ((buf_len <? 9223372036854775808) && (mem <? buf_len))%N then None else Some (read_block p file plan range_start range_end)
  | _ => Some (read_block p file plan range_start range_end)
  end.

(** The property: if there is memory for the whole file, no range takes the
    process down; a wrong one is an error like any other. *)
Definition C99_statement : Prop := forall mem p file plan s e,
  file_ok file -> (s < u64_lim)%N -> (e < u64_lim)%N -> (N.of_nat (length file) <= mem)%N ->
  exists r, read_block_mem mem p file plan s e = Some (Ret r) /\ ((e < s)%N \/ (s < e /\ N.of_nat (length file) < e)%N -> r = Err).

(** Exactly the ranges that take the process down, whatever the file is. *)
Theorem C99_exact_partial : forall mem p file plan s e, (s < u64_lim)%N -> (e < u64_lim)%N ->
  (read_block_mem mem p file plan s e = None
   <-> (s <= e /\ mem < e - s < 9223372036854775808)%N
       \/ (p = Release /\ e < s /\ mem < 18446744073709551616 - (s - e) < 9223372036854775808)%N)
  /\ (read_block_mem mem p file plan s e <> None -> read_block_mem mem p file plan s e = Some (read_block p file plan s e)).
Proof.
  intros mem p file plan s e Hs He. change u64_lim with 18446744073709551616%N in *.
  unfold read_block_mem, sub64, usub. change u64_lim with 18446744073709551616%N.
  assert (B : forall n, ((n <? 9223372036854775808) && (mem <? n))%N = true <-> (mem < n < 9223372036854775808)%N).
  { intros n. rewrite Bool.andb_true_iff, !N.ltb_lt. lia. }
  destruct (s <=? e)%N eqn:L.
  - apply N.leb_le in L. specialize (B (e - s)%N). destruct (_ && _)%bool; (split; [|congruence]).
    + split; [|reflexivity]. intros _. left. split; [exact L|apply B; reflexivity].
    + split; [discriminate|]. intros [(_ & X)|(_ & X & _)]; [apply B in X; discriminate X|lia].
  - apply N.leb_gt in L. destruct p.
    + split; [|congruence]. split; [discriminate|]. intros [(X & _)|(X & _)]; [lia|discriminate X].
    + replace (e + 18446744073709551616 - s)%N with (18446744073709551616 - (s - e))%N by lia.
      specialize (B (18446744073709551616 - (s - e))%N). destruct (_ && _)%bool; (split; [|congruence]).
      * split; [|reflexivity]. intros _. right. split; [reflexivity|]. split; [exact L|apply B; reflexivity].
      * split; [discriminate|]. intros [(X & _)|(_ & _ & X)]; [lia|apply B in X; discriminate X].
Qed.
Print Assumptions C99_exact_partial.

(** A range inside the file asks for no more than the file holds: every block
    that was written can be read if there is memory for the file. *)
Theorem C99_in_file : forall mem p before bs after plan,
  file_ok (before ++ bs ++ after) -> ~ In PFail plan -> (N.of_nat (length bs) <= mem)%N ->
  read_block_mem mem p (before ++ bs ++ after) plan (N.of_nat (length before)) (N.of_nat (length before + length bs)) = Some (Ret (Ok bs)).
Proof.
  intros mem p before bs after plan F NP M. rewrite <- (C41_range_in_file p before bs after plan F NP).
  unfold file_ok in F. rewrite !app_length in F.
  apply C99_exact_partial; [change u64_lim with 18446744073709551616%N; lia..|].
  intros E. apply C99_exact_partial in E; [|change u64_lim with 18446744073709551616%N; lia..].
  destruct E as [(A & B)|(_ & B & _)]; lia.
Qed.
Print Assumptions C99_in_file.

Example C99_witness :
  read_block_mem 3 Debug [7; 8; 9; 10]%N [PShort 1] 1 4 = Some (Ret (Ok [8; 9; 10]%N))
  /\ read_block_mem 3 Debug [7; 8; 9; 10]%N [] 2 5 = Some (Ret Err)
  /\ read_block_mem 3 Release [7; 8; 9; 10]%N [] 0 5 = None
  /\ read_block_mem 1000000000000 Release [7; 8; 9; 10]%N [] 9223372036854776000 100 = None
  /\ read_block_mem 1000000000000 Debug [7; 8; 9; 10]%N [] 9223372036854776000 100 = Some (Ret Err)
  /\ read_block_mem 1000000000000 Release [7; 8; 9; 10]%N [] 101 100 = Some (Ret Err).
Proof. vm_compute. repeat split. Qed.

(** However much memory there is, and whatever the file holds, one range takes
    the process down in each build, although it is only wrong. *)
Theorem C99_refuted : ~ C99_statement
  /\ forall mem p file plan, (mem < 9223372036854775807)%N -> (N.of_nat (length file) <= mem)%N ->
     exists s e, (s < u64_lim)%N /\ (e < u64_lim)%N /\ (s < e /\ N.of_nat (length file) < e)%N
       /\ read_block p file plan s e = Ret Err /\ read_block_mem mem p file plan s e = None.
Proof.
  assert (A : forall mem p file plan, (mem < 9223372036854775807)%N -> (N.of_nat (length file) <= mem)%N ->
     exists s e, (s < u64_lim)%N /\ (e < u64_lim)%N /\ (s < e /\ N.of_nat (length file) < e)%N
       /\ read_block p file plan s e = Ret Err /\ read_block_mem mem p file plan s e = None).
  { intros mem p file plan M L. exists 0%N, (mem + 1)%N. change u64_lim with 18446744073709551616%N.
    assert (FO : file_ok file) by (unfold file_ok; lia).
    split; [lia|]. split; [lia|]. split; [lia|]. split.
    - apply C41_bad_range; [exact FO|change u64_lim with 18446744073709551616%N; lia..|right; lia].
    - apply C99_exact_partial; [change u64_lim with 18446744073709551616%N; lia..|left; lia]. }
  split; [|exact A]. intros H. destruct (A 3%N Debug [7; 8; 9]%N [] ltac:(lia) ltac:(cbn; lia)) as (s & e & Hs & He & _ & _ & X).
  destruct (H 3%N Debug [7; 8; 9]%N [] s e) as (r & Y & _); [unfold file_ok; cbn; lia|exact Hs|exact He|cbn; lia|]. congruence.
Qed.
Print Assumptions C99_refuted.
