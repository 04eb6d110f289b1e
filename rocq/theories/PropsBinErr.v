(** Properties C55 and C58 for binary columns (raw/binary_enc.rs). *)
From Verif Require Import Base BaseProofs Spec SpecRows Varint Buffers Observe BuffersProofs
  Rle Offsets OffsetsProofs Sink BinEnc ObserveEnc PropsPrimErr.
Open Scope nat_scope.

(** C55 for binary columns.  The property is false.  After a rejected block of
    held back rows, encoding the same buffer again panics in a build with
    overflow checks; otherwise the buffer's rows are written twice.  And a
    rejected block is counted. *)
Theorem C55_binary_retry_refuted :
  match bb_fill false [[Some [1; 2]]; [Some [3; 4]; Some [5]]]%N with
  | Ret [b1; b2] =>
      match be_encodes fails_once Debug (be_new 3 false) [b1; b2] (Some 0, []) with
      | Ret (e, (None, []), Err) => be_encode fails_once Debug 3 e b2 (None, []) = Panic POverflow
      | _ => False end
      /\ match be_encodes fails_once Release (be_new 3 false) [b1; b2] (Some 0, []) with
         | Ret (e, (None, []), Err) =>
             match be_encode fails_once Release 3 e b2 (None, []) with
             | Ret (_, (_, written), Ok _) => written = [(5, [7; 1; 2; 3; 4; 3; 4; 5; 2; 2])]%N
             | _ => False end
         | _ => False end
      /\ match be_column Release 3 false [b1; b2] with
         | Ret (blocks, Ok _) => blocks = [(1, [4; 1; 2; 3; 4; 2; 2]); (2, [1; 5; 1; 1])]%N
         | _ => False end
  | _ => False end.
Proof. vm_compute. repeat split. Qed.
Print Assumptions C55_binary_retry_refuted.

(** ** The counter *)

Lemma encode_bin_pos p buf c bp rle out rle' n lvp :
  encode_binary_buffer p buf c bp rle = Ret (out, rle', (n, lvp)) ->
  (bc_start c < bc_end c -> bc_len c = N.of_nat (bc_end c - bc_start c)) -> 0 < n.
Proof.
  unfold encode_binary_buffer. intros H HC.
  destruct (put_varint [] _) as [h| |]; try discriminate. cbn [bind] in H.
  destruct (slice _ _ _) as [vals| |]; try discriminate. cbn [bind] in H.
  destruct (item_lens p buf (bc_start c) (bc_end c - bc_start c)) as [d| |] eqn:EI; try discriminate. cbn [bind] in H.
  destruct (off_encode p d (h ++ vals)) as [r| |] eqn:EO; try discriminate. cbn [bind] in H.
  assert (L : bc_start c < bc_end c).
  { destruct (Nat.lt_ge_cases (bc_start c) (bc_end c)) as [L|L]; [exact L|]. replace (bc_end c - bc_start c) with 0 in EI by lia.
    injection EI as <-. rewrite off_encode_panics in EO; [discriminate|left; reflexivity|cbn; lia]. }
  rewrite (HC L) in H. rewrite Nat2N.id in H. destruct (bb_validity buf) as [v|].
  - destruct (rle_put_from _ _ _ _) as [[e1 q]| |] eqn:EP; try discriminate. cbn [bind fst snd] in H.
    destruct (rle_flush e1); try discriminate. cbn [bind] in H. injection H as _ _ <- _.
    unfold rle_put_from in EP. apply put_from_loop_moves in EP. lia.
  - injection H as _ _ <- _. lia.
Qed.

Definition bcounted_step (e : bin_enc) (s : list (N * list N)) (e' : bin_enc) (s' : list (N * list N)) : Prop :=
  exists new, s' = s ++ new /\ ids_between (be_rows e) (map fst new) (be_rows e')
    /\ ((be_rows e <= u32_max)%N -> (be_rows e' <= u32_max)%N).

Lemma bstep_refl e e' s : be_rows e' = be_rows e -> bcounted_step e s e' s.
Proof. intros HR. exists []. rewrite app_nil_r, HR. cbn. repeat split; auto. lia. Qed.

Lemma bstep_trans e1 s1 e2 s2 e3 s3 : bcounted_step e1 s1 e2 s2 -> bcounted_step e2 s2 e3 s3 -> bcounted_step e1 s1 e3 s3.
Proof.
  intros (n1 & -> & I1 & B1) (n2 & -> & I2 & B2). exists (n1 ++ n2). rewrite app_assoc, map_app.
  split; [reflexivity|]. split; [eapply ids_between_app; eauto|]. auto.
Qed.

Lemma bwrite_step p e buf c bp s e' s' res : (bc_start c < bc_end c -> bc_len c = N.of_nat (bc_end c - bc_start c)) ->
  be_write collect p e buf c bp s = Ret (e', s', res) -> bcounted_step e s e' s'.
Proof.
  intros L H. unfold be_write in H.
  destruct (encode_binary_buffer p buf c bp (be_bitmap e)) as [[[out rle'] [n lvp]]| |] eqn:EE; try discriminate.
  cbn [bind] in H. pose proof (encode_bin_pos _ _ _ _ _ _ _ _ _ EE L) as HN.
  destruct (be_add_rows (be_rows e) n) as [r| |] eqn:EA; try discriminate. cbn [bind] in H.
  unfold be_add_rows in EA. destruct (N.leb_spec (N.of_nat n) u32_max); [|discriminate].
  destruct (N.leb_spec (be_rows e + N.of_nat n) u32_max); [|discriminate]. injection EA as <-.
  rewrite sub32_ok in H by lia. cbn [bind collect fst snd] in H. injection H as <- <- _.
  exists [(be_rows e + N.of_nat n - 1, out)%N]. cbn [be_rows map fst ids_between]. repeat split; auto; lia.
Qed.

Lemma be_chunk_len p buf start m c : be_chunk p buf start m = Ret c -> bc_start c < bc_end c -> bc_len c = N.of_nat (bc_end c - bc_start c).
Proof.
  unfold be_chunk. intros H L. destruct (idx _ start) as [so| |]; try discriminate. cbn [bind] in H.
  destruct (find_offset _ _ _ _ _) as [f| |]; try discriminate. cbn [bind] in H.
  destruct (match f with Some e => Ret e | None => _ end) as [[ep eo]| |]; try discriminate. cbn [bind] in H.
  destruct (sub32 p eo so) as [size| |]; try discriminate. cbn [bind] in H.
  destruct (sub64 p (N.of_nat ep) (N.of_nat start)) as [len| |] eqn:ES; try discriminate. cbn [bind] in H.
  injection H as <-. cbn [bc_start bc_end bc_len] in *. rewrite sub64_ok in ES by lia. injection ES as <-. lia.
Qed.

Lemma bremaining_step p e s e' s' res : be_write_remaining collect p e s = Ret (e', s', res) -> bcounted_step e s e' s'.
Proof.
  unfold be_write_remaining. intros H. destruct (idx _ _) as [eo| |]; try discriminate. cbn [bind] in H.
  apply bwrite_step in H; [exact H|]. cbn [bc_start bc_end bc_len]. unfold bb_len. intros _. f_equal. lia.
Qed.

Lemma bloop_step p buf : forall fuel e pos vp s e' s' res,
  be_loop collect p fuel e buf pos vp s = Ret (e', s', res) -> bcounted_step e s e' s'.
Proof.
  induction fuel as [|fuel IH]; intros e pos vp s e' s' res H; cbn [be_loop] in H; [discriminate|].
  destruct (_ <? _).
  - destruct (be_chunk p buf pos (be_min e)) as [c| |] eqn:EC; try discriminate. cbn [bind] in H.
    destruct (_ <? _)%N.
    + destruct (bb_append_from _ _ _ _ _ _) as [[b q']| |]; try discriminate. cbn [bind fst] in H. injection H as <- <- _.
      apply bstep_refl; reflexivity.
    + destruct (be_write collect p e buf c vp s) as [[[e1 s1] res1]| |] eqn:EW; try discriminate. cbn [bind] in H.
      apply bwrite_step in EW; [|apply (be_chunk_len _ _ _ _ _ EC)]. destruct res1 as [lvp|].
      * apply IH in H. eapply bstep_trans; eauto.
      * injection H as <- <- _. exact EW.
  - injection H as <- <- _. apply bstep_refl; reflexivity.
Qed.

Lemma bencode_step p buf fuel e s e' s' res :
  be_encode collect p fuel e buf s = Ret (e', s', res) -> bcounted_step e s e' s'.
Proof.
  intros H. unfold be_encode in H. destruct (_ <? _).
  - destruct (sub64 _ _ _) as [want| |]; try discriminate. cbn [bind] in H.
    destruct (be_chunk _ _ _ _) as [c| |]; try discriminate. cbn [bind] in H.
    destruct (bb_append_from _ _ _ _ _ _) as [[b q']| |]; try discriminate. cbn [bind fst snd] in H.
    destruct (_ <? _)%N.
    + injection H as <- <- _. apply bstep_refl; reflexivity.
    + destruct (be_write_remaining collect p (be_set_remaining e b) s) as [[[e1 s1] res1]| |] eqn:EW; try discriminate. cbn [bind] in H.
      apply bremaining_step in EW. assert (EW' : bcounted_step e s e1 s1) by exact EW. destruct res1.
      * apply bloop_step in H. eapply bstep_trans; [exact EW'|]. exact H.
      * injection H as <- <- _. exact EW'.
  - eapply bloop_step; eauto.
Qed.

(** C58 for binary columns.  From any encoder, whatever the buffers, the block
    size and the build profile: if the calls return at all, the identifiers of the
    new blocks increase strictly from the number of rows counted before and stay
    below the number counted after, which does not pass 2^32-1. *)
Theorem C58_binary_counter_never_wraps :
  forall p bufs e s e' s' res, (be_rows e <= u32_max)%N ->
  be_finish collect p e bufs s = Ret (e', s', res) ->
  exists new, s' = s ++ new /\ ids_between (be_rows e) (map fst new) (be_rows e') /\ (be_rows e' <= u32_max)%N.
Proof.
  intros p bufs e s e' s' res HR H.
  assert (X : bcounted_step e s e' s').
  2:{ destruct X as (new & A & B & C). exists new. auto. }
  clear HR. unfold be_finish in H.
  destruct (be_encodes collect p e bufs s) as [[[e1 s1] res1]| |] eqn:EE; try discriminate. cbn [bind] in H.
  assert (X1 : bcounted_step e s e1 s1).
  { clear H. revert e s EE. induction bufs as [|b bufs IH]; intros e s EE; cbn [be_encodes] in EE.
    - injection EE as <- <- _. apply bstep_refl; reflexivity.
    - destruct (be_encode collect p _ e b s) as [[[e2 s2] res2]| |] eqn:EB; try discriminate. cbn [bind] in EE.
      apply bencode_step in EB. destruct res2.
      + apply IH in EE. eapply bstep_trans; eauto.
      + injection EE as <- <- _. exact EB. }
  destruct res1; [|injection H as <- <- _; exact X1].
  eapply bstep_trans; [exact X1|]. unfold be_flush in H. destruct (_ <? _).
  - destruct (be_write_remaining collect p e1 s1) as [[[e2 s2] res2]| |] eqn:EW; try discriminate. cbn [bind] in H.
    injection H as <- <- _. eapply bremaining_step; eauto.
  - injection H as <- <- _. apply bstep_refl; reflexivity.
Qed.
Print Assumptions C58_binary_counter_never_wraps.

(** Close to the limit. *)
Example C58_binary_witness :
  match bb_fill true [[None; Some [1; 2; 3; 4]]; [Some [5]]]%N with
  | Ret [a; b] =>
      let e := mk_benc (bb_new true) [] rle_new 4 4294967293 in
      match be_encode collect Release 3 e a [] with
      | Ret (e1, written, Ok _) =>
          map fst written = [4294967294]%N
          /\ be_finish collect Release e1 [b] written = Panic PExpect
      | _ => False end
  | _ => False end.
Proof. vm_compute. split; reflexivity. Qed.
