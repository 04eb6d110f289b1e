(** Properties C28, C30-C32, C55 and C58: block sizes, row identifiers, panics,
    flushing and errors of fixed-width columns (raw/primitive_enc.rs). *)
From Verif Require Import Base BaseProofs Spec SpecRows Varint VarintProofs Buffers Observe BitmapProofs BuffersProofs
  Rle Sink PrimEnc ReadBlock ObserveEnc RowsProofs BlockProofs PrimEncProofs PrimRunProofs PropsPrim PropsPrimRows.
Open Scope nat_scope.

Lemma holds_all_allowed nl bufs (rowss : list (list (option N))) :
  Forall2 (fun b rows => pb_holds b nl rows) bufs rowss -> Forall (rows_allowed nl) rowss.
Proof. induction 1 as [|b r bufs rowss H _ IH]; constructor; auto. eapply holds_allowed; eauto. Qed.

Lemma cap_pos sz B cap : (0 < B)%N -> (B <= N.of_nat (cap * sz))%N -> 0 < cap.
Proof. destruct cap; cbn; lia. Qed.

(** The size in the header of a block. *)
Definition data_size (p : profile) (block : list N) (size : N) : Prop :=
  exists n, decode_varint p block = Ret (Ok (size, n)) /\ (N.of_nat n + size <= N.of_nat (length block))%N.

Lemma prim_block_size p sz nl w : (N.of_nat (sz * num_vals w) < u64_lim)%N ->
  data_size p (prim_block sz nl w) (N.of_nat (sz * num_vals w)).
Proof.
  intros H. unfold prim_block. eexists. split; [apply decode_varint_bytes; exact H|].
  rewrite !app_length, bytes_length. unfold num_vals. lia.
Qed.

(** C28.  After any history of encodes, every block written so far carries at
    least the block size of data, and less than one value more; a flush then
    writes at most one more block, with less data than that bound. *)
Theorem C28_block_sizes :
  forall p sz B cap nl bufs rowss e written res,
  2 <= sz -> (N.of_nat sz < 2 ^ 31)%N -> (0 < B < 2 ^ 32)%N ->
  (B <= N.of_nat (cap * sz) < B + N.of_nat sz)%N ->
  p = Debug \/ N.of_nat (cap * sz) = B ->
  Forall2 (fun b rows => pb_holds b nl rows) bufs rowss ->
  (total_rows rowss <= 2 ^ 32 - 2)%N ->
  pe_encodes collect p sz (pe_new B nl) bufs [] = Ret (e, written, res) ->
  Forall (fun b => exists size, data_size p (snd b) size /\ (B <= size < B + N.of_nat sz)%N) written
  /\ forall e' written' res', pe_flush collect p sz e written = Ret (e', written', res') ->
       written' = written
       \/ exists id block size, written' = written ++ [(id, block)] /\ data_size p block size
            /\ (0 < size < B + N.of_nat sz)%N.
Proof.
  intros p sz B cap nl bufs rowss e written res Hs Hz HB HF Hp HH HT HE.
  change (2 ^ 32 - 2)%N with 4294967294%N in HT. unfold total_rows in HT.
  assert (Hc : 0 < cap) by (apply (cap_pos sz B cap); lia).
  assert (H64 : (N.of_nat (sz * cap) < u64_lim)%N).
  { change (2 ^ 32)%N with 4294967296%N in HB. change (2 ^ 31)%N with 2147483648%N in Hz. unfold u64_lim. lia. }
  pose proof (pe_encodes_ok collect p sz B cap nl Hs HF HB Hz Hp bufs rowss (pe_new B nl) [] 0%N [] HH (pe_inv_new B nl)) as PE.
  specialize (PE ltac:(cbn; lia) (fun _ => eq_refl)).
  change (2 ^ 32 - 2)%N with 4294967294%N in PE. cbn [length Nat.add] in PE.
  assert (HT2 : (N.of_nat (sum_len rowss) <= 4294967294)%N) by (clear -HT; unfold sum_len; lia). specialize (PE HT2).
  cbn zeta in PE. set (exact := (N.of_nat (cap * sz) =? B)%N) in *.
  destruct (col_run_blocks nl exact cap Hc rowss [] (holds_all_allowed _ _ _ HH)) as [CB _].
  set (run := col_run nl exact cap [] rowss) in *. rewrite emits_collect in PE. rewrite HE in PE.
  destruct ((0 + total (map fst (fst run)) <=? u32_max)%N || match fst run with [] => true | _ => false end); [|discriminate].
  cbn [app] in PE. destruct (snd run) as [held|]; [|discriminate].
  destruct PE as (e1 & E1 & I & A & LH). injection E1 as <- -> ->. split.
  - assert (X : forall rows items, Forall (fun w => num_vals w = cap /\ ends_some w /\ rows_allowed nl w /\ length w <= sum_len rowss
            /\ forall v, In v (somes w) -> In v (somes (concat rowss))) (map snd items) ->
       Forall (fun b => exists size, data_size p (snd b) size /\ (B <= size < B + N.of_nat sz)%N) (labelled sz nl rows items)).
    { intros rows items; revert rows. induction items as [|[n w] items IH]; intros rows HI; cbn [labelled]; [constructor|].
      cbn [map snd] in HI. apply Forall_cons_iff in HI. destruct HI as [(W & _) HI2]. constructor; [|apply IH; exact HI2].
      cbn [snd]. eexists. split; [apply prim_block_size; rewrite W; exact H64|]. rewrite W. lia. }
    apply X. exact CB.
  - intros e' written' res' EF.
    pose proof (pe_flush_ok collect p sz B nl e held (0 + total (map fst (fst run)))%N (labelled sz nl 0 (fst run)) ltac:(lia)) as PF.
    assert (H64' : (N.of_nat (sz * num_vals held) < u64_lim)%N).
    { assert (sz * num_vals held <= sz * cap) by (apply Nat.mul_le_mono_l; exact A). lia. }
    specialize (PF H64' I). change (2 ^ 32)%N with 4294967296%N in PF.
    assert (LH2 : (N.of_nat (length held) <= 4294967296)%N) by (clear -LH HT2; lia). specialize (PF LH2).
    rewrite emits_collect in PF. rewrite EF in PF.
    destruct held as [|x h0] eqn:EH.
    + rewrite orb_true_r in PF. destruct PF as (e2 & E2 & _). injection E2 as <- -> ->. left. cbn [labelled]. apply app_nil_r.
    + rewrite <- EH in *. destruct (_ || _) in PF; [|discriminate]. destruct PF as (e2 & E2 & _). injection E2 as <- -> ->. right.
      cbn [labelled]. eexists _, _, _. split; [reflexivity|]. split; [apply prim_block_size; exact H64'|].
      assert (0 < num_vals held) by (apply nonempty_num; [apply I|rewrite EH; discriminate]).
      clear -H A HF Hs. assert (sz * num_vals held <= cap * sz) by nia. nia.
Qed.
Print Assumptions C28_block_sizes.

(** Blocks of two 8-byte values for a block size of 12. *)
Example C28_witness :
  match pb_fill true [[Some 1; None; Some 2; Some 3; Some 4; Some 5]]%N with
  | Ret bufs =>
      match pe_encodes collect Debug 8 (pe_new 12 true) bufs [] with
      | Ret (e, written, Ok _) =>
          map (fun b => decode_varint Debug (snd b)) written = [Ret (Ok (16%N, 1)); Ret (Ok (16%N, 1))]
          /\ match pe_flush collect Debug 8 e written with
             | Ret (_, [_; _; (_, block)], _) => decode_varint Debug block = Ret (Ok (8%N, 1))
             | _ => False end
      | _ => False end
  | _ => False end.
Proof. vm_compute. split; reflexivity. Qed.

(** ** Row identifiers *)

(** The row identifiers are right: each is the position of its block's last row
    in the rows of all blocks up to it. *)
Definition ids_right {T} (ids : list N) (ws : list (list T)) : Prop :=
  length ids = length ws
  /\ forall i id, nth_error ids i = Some id -> (id + 1 = N.of_nat (length (concat (firstn (S i) ws))))%N.

Lemma ids_of_lengths {T} (ws : list (list T)) : Forall (fun w => w <> []) ws -> forall from,
  length (row_ids from (map (@length T) ws)) = length ws
  /\ forall i id, nth_error (row_ids from (map (@length T) ws)) i = Some id ->
     (id + 1 = from + N.of_nat (length (concat (firstn (S i) ws))))%N.
Proof.
  induction 1 as [|w ws Hw _ IH]; intros from; cbn [map row_ids].
  - split; [reflexivity|]. intros [|i] id; discriminate.
  - destruct (IH (from + N.of_nat (length w))%N) as [L IHn]. cbn [length]. split; [f_equal; exact L|].
    intros [|i] id; cbn [nth_error]; intros E.
    + injection E as <-. cbn [firstn concat]. rewrite app_nil_r. destruct w; [congruence|]. cbn [length]. lia.
    + apply IHn in E. rewrite E. cbn [firstn concat]. rewrite app_length. destruct ws; cbn [firstn]; lia.
Qed.

Lemma counted_lengths {T} (ws : list (list (option T))) : forall pos, map fst (counted false pos ws) = map (@length _) ws.
Proof. induction ws as [|w ws IH]; intros pos; cbn; [reflexivity|]. rewrite IH. reflexivity. Qed.

(** Columns where every call of encode writes at most one block are counted
    right as well. *)
Lemma counted_single {T} nl cap (r : list (option T)) : 0 < cap -> num_vals r < 2 * cap ->
  map fst (counted nl 0 (cut cap r)) = map (@length _) (cut cap r).
Proof.
  intros Hc H. rewrite cut_step by exact Hc. destruct (cap <=? num_vals r); [|reflexivity].
  rewrite cut_step by exact Hc. destruct (Nat.leb_spec cap (num_vals (drop_vals cap r))) as [L|L].
  - rewrite num_drop in L. lia.
  - cbn. destruct nl; reflexivity.
Qed.

Lemma run_lengths {T} nl exact cap : 0 < cap -> forall rowss (pending : list (option T)),
  nl = false \/ Forall (fun r => num_vals r < 2 * cap) rowss ->
  map fst (fst (col_run nl exact cap pending rowss)) = map (@length _) (map snd (fst (col_run nl exact cap pending rowss))).
Proof.
  intros Hc. induction rowss as [|r rowss IH]; intros pending HN; cbn [col_run]; [reflexivity|].
  assert (HN2 : nl = false \/ Forall (fun r => num_vals r < 2 * cap) rowss).
  { destruct HN as [HN|HN]; [auto|]. inversion HN; auto. }
  destruct pending as [|x pend0].
  - cbn [fst]. rewrite !map_app, counted_snd, <- IH by exact HN2. f_equal.
    destruct HN as [->|HN]; [apply counted_lengths|]. inversion HN; subst. apply counted_single; auto.
  - destruct (_ || _); [apply IH; exact HN2|reflexivity].
Qed.

Lemma flush_lengths {T} (held : list (option T)) : map fst (flush_block held) = map (@length _) (map snd (flush_block held)).
Proof. destruct held; reflexivity. Qed.

(** C30 for columns that are not nullable, and for nullable ones whose buffers
    each hold fewer than two blocks. *)
Theorem C30_row_ids_partial :
  forall p sz B cap nl bufs rowss written res,
  2 <= sz -> (N.of_nat sz < 2 ^ 31)%N -> (0 < B < 2 ^ 32)%N -> N.of_nat (cap * sz) = B ->
  Forall2 (fun b rows => pb_holds b nl rows) bufs rowss ->
  (total_rows rowss <= 2 ^ 32 - 8)%N -> Forall (fit sz) rowss ->
  nl = false \/ Forall (fun rows => length (somes rows) < 2 * cap) rowss ->
  pe_column p sz B nl bufs = Ret (written, res) ->
  exists ws, reads_blocks p sz nl written ws /\ ids_right (map fst written) ws.
Proof.
  intros p sz B cap nl bufs rowss written res Hs Hz HB HF HH HT HV HN E.
  assert (Hc : 0 < cap) by (apply (cap_pos sz B cap); lia).
  destruct (column_reads _ _ _ _ _ _ _ _ _ Hs Hz HB HF HH HT HV E) as (run & held & ER & -> & R & I).
  eexists. split; [exact R|]. rewrite I.
  pose proof (run_lengths nl true cap Hc rowss [] HN) as RL. rewrite ER in RL. cbn [fst] in RL.
  rewrite map_app, RL, flush_lengths, <- map_app, <- map_app.
  destruct (col_run_blocks nl true cap Hc rowss [] (holds_all_allowed _ _ _ HH)) as [CB _]. rewrite ER in CB. cbn [fst] in CB.
  assert (NE : Forall (fun w => w <> []) (map snd (run ++ flush_block held))).
  { rewrite map_app. apply Forall_app. split.
    - eapply Forall_impl; [|exact CB]. cbn. intros w (W & _) ->. unfold num_vals in W. cbn in W. lia.
    - destruct held; constructor; [discriminate|constructor]. }
  destruct (ids_of_lengths _ NE 0%N) as [L X]. split; [exact L|]. intros i id Hi. apply X in Hi. lia.
Qed.
Print Assumptions C30_row_ids_partial.

Example C30_witness :
  match pe_column_rows Debug 8 16 false [[Some 1; Some 2; Some 3; Some 4; Some 5]; [Some 6]]%N with
  | Ret (written, Ok _) => map fst written = [1; 3; 5]%N
  | _ => False end
  /\ match pe_column_rows Debug 8 16 true [[Some 1; None; Some 2; Some 3]; [Some 4]; [Some 9]]%N with
     | Ret (written, Ok _) => map fst written = [2; 4]%N
     | _ => False end.
Proof. vm_compute. split; reflexivity. Qed.

(** C30 does not hold for nullable columns: from the second block of a buffer on
    the number of rows is taken from the position in the buffer, so earlier rows
    are counted again.  (The exact identifiers are those of [C29_column_exact].) *)
Theorem C30_row_ids_refuted :
  ~ (forall p sz B nl rowss written,
       0 < sz -> (0 < B)%N -> Forall (fit sz) rowss -> Forall (rows_allowed nl) rowss ->
       pe_column_rows p sz B nl rowss = Ret (written, Ok tt) ->
       exists ws, reads_blocks p sz nl written ws /\ ids_right (map fst written) ws)
  /\ match pe_column_rows Release 8 128 true [repeat (Some 7%N) 48] with
     | Ret (written, Ok _) =>
         reads_blocks Release 8 true written (repeat (repeat (Some 7%N) 16) 3)
         /\ map fst written = [15; 47; 95]%N
     | _ => False end.
Proof.
  split; [|vm_compute; split; reflexivity].
  intros H. specialize (H Release 8 8%N true [[Some 7; Some 7]]%N).
  destruct (pe_column_rows Release 8 8 true [[Some 7; Some 7]]%N) as [[written res]| |] eqn:E; vm_compute in E; try discriminate.
  injection E as <- <-.
  assert (F : Forall (fit 8) [[Some 7; Some 7]]%N).
  { repeat constructor. }
  destruct (H _ ltac:(lia) ltac:(lia) F ltac:(repeat constructor) eq_refl) as (ws & H1 & H2 & H3). unfold reads_blocks in H1. vm_compute in H1.
  destruct ws as [|w1 [|w2 [|w3 ws]]]; try discriminate. cbn [map] in H1. injection H1 as <- <-.
  specialize (H3 1 2%N eq_refl). vm_compute in H3. discriminate.
Qed.
Print Assumptions C30_row_ids_refuted.
