(** Properties C27-C29: the blocks of fixed-width columns
    (raw/primitive_enc.rs). *)
From Verif Require Import Base BaseProofs Spec SpecRows Varint VarintProofs Buffers Observe BitmapProofs BuffersProofs
  Rle Sink PrimEnc ReadBlock ObserveEnc RowsProofs BlockProofs PrimEncProofs PrimRunProofs.
Open Scope nat_scope.

(** Values fit their width. *)
Definition fit (sz : nat) (rows : list (option N)) : Prop :=
  Forall (fun v => v < 256 ^ N.of_nat sz)%N (somes rows).

(** C27.  A window of a buffer that ends with a non-null row, from any state of
    the reused bitmap encoder: the block decodes to exactly the window's rows. *)
Theorem C27_block_round_trip :
  forall p sz nl buf before w after rle,
  0 < sz -> (N.of_nat sz < 2 ^ 31)%N ->
  pb_holds buf nl (before ++ w ++ after) -> (exists r v, w = r ++ [Some v]) ->
  (N.of_nat (length w) <= 2 ^ 32 - 8)%N -> fit sz w ->
  let start := length (somes before) in
  exists block rle' num_rows last_validity_pos,
    encode_primitive_buffer sz buf start (start + length (somes w)) (length before) rle
    = Ret (block, rle', (num_rows, last_validity_pos))
    /\ read_primitive_block p sz nl block = Ret (Ok w).
Proof.
  intros p sz nl buf before w after rle Hs Hz HH HE HL HF start.
  assert (HE' : ends_some w) by (right; exact HE). pose proof (somes_length_le w) as SL.
  change (2 ^ 31)%N with 2147483648%N in Hz. change (2 ^ 32 - 8)%N with 4294967288%N in HL.
  destruct (encode_primitive_ok sz buf nl before w after rle HH HE') as (rle' & E).
  { change (2 ^ 32)%N with 4294967296%N. lia. } { unfold num_vals, u64_lim. nia. }
  fold (num_vals before) in start. fold (num_vals w). unfold start. rewrite E.
  assert (R : read_primitive_block p sz nl (prim_block sz nl w) = Ret (Ok w)).
  { apply read_prim_block; auto.
    - apply holds_allowed in HH. apply allowed_app in HH. destruct HH as [_ HH]. apply allowed_app in HH. tauto.
    - change (2 ^ 32)%N with 4294967296%N. lia. }
  destruct nl; eexists _, _, _, _; (split; [reflexivity|exact R]).
Qed.
Print Assumptions C27_block_round_trip.

(** A window in the middle of a nullable buffer. *)
Example C27_witness :
  let rows := ([Some 9; None] ++ [None; Some 258; Some 3; None; Some 4294967295] ++ [None; Some 1])%N in
  match pb_append_rows (pb_new true) rows with
  | Ret buf =>
      match encode_primitive_buffer 4 buf 1 4 2 rle_new with
      | Ret (block, _, (n, pos)) =>
          block = [12; 2;1;0;0; 3;0;0;0; 255;255;255;255; 3; 22]%N /\ n = 7 /\ pos = 7
          /\ read_primitive_block Debug 4 true block
             = Ret (Ok [None; Some 258; Some 3; None; Some 4294967295]%N)
      | _ => False end
  | _ => False end.
Proof. vm_compute. repeat split. Qed.

(** ** Whole columns *)

Lemma read_labelled p sz nl items : 0 < sz -> (N.of_nat sz < 2 ^ 31)%N -> forall rows,
  Forall (fun w => ends_some w /\ rows_allowed nl w /\ (N.of_nat (length w) <= 2 ^ 32 - 8)%N /\ fit sz w) (map snd items) ->
  map (fun b => read_primitive_block p sz nl (snd b)) (labelled sz nl rows items) = map (fun b => Ret (Ok (snd b))) items.
Proof.
  intros Hs Hz rows HA. rewrite <- (map_map snd (read_primitive_block p sz nl)), labelled_blocks.
  rewrite !map_map. rewrite Forall_map in HA. apply map_ext_in. intros [n w] Hin. rewrite Forall_forall in HA.
  destruct (HA _ Hin) as (A & B & C & D). cbn [snd] in *. change (2 ^ 32 - 8)%N with 4294967288%N in C.
  apply read_prim_block; auto. change (2 ^ 32)%N with 4294967296%N. lia.
Qed.

(** Everything a column does, for every history: the blocks are those of
    [col_run] followed by the held back rows, with the row identifiers given by
    [row_ids]; the run panics exactly when the counter would pass 2^32-1, or when
    a buffer arrives while a full block is held back whose size is not the block
    size itself. *)
Definition total_rows {T} (rowss : list (list T)) : N := N.of_nat (length (concat rowss)).

Theorem C29_column_exact :
  forall p sz B cap nl bufs rowss,
  2 <= sz -> (N.of_nat sz < 2 ^ 31)%N -> (0 < B < 2 ^ 32)%N ->
  (B <= N.of_nat (cap * sz) < B + N.of_nat sz)%N ->
  p = Debug \/ N.of_nat (cap * sz) = B ->
  Forall2 (fun b rows => pb_holds b nl rows) bufs rowss ->
  (total_rows rowss <= 2 ^ 32 - 8)%N -> Forall (fit sz) rowss ->
  let run := col_run nl (N.of_nat (cap * sz) =? B)%N cap [] rowss in
  match snd run with
  | Some held =>
      let blocks := fst run ++ flush_block held in
      if (total (map fst blocks) <=? u32_max)%N then
        exists written, pe_column p sz B nl bufs = Ret (written, Ok tt)
          /\ map fst written = row_ids 0 (map fst blocks)
          /\ map (fun b => read_primitive_block p sz nl (snd b)) written = map (fun b => Ret (Ok (snd b))) blocks
      else pe_column p sz B nl bufs = Panic PExpect
  | None =>
      if (total (map fst (fst run)) <=? u32_max)%N then pe_column p sz B nl bufs = Panic POverflow
      else pe_column p sz B nl bufs = Panic PExpect
  end.
Proof.
  intros p sz B cap nl bufs rowss Hs Hz HB HF Hp HH HT HV.
  change (2 ^ 32 - 8)%N with 4294967288%N in HT. unfold total_rows in HT. fold (sum_len rowss) in HT.
  assert (Hc : 0 < cap) by (destruct HF; destruct cap; cbn in *; lia).
  assert (HA : Forall (rows_allowed nl) rowss).
  { clear -HH. induction HH as [|b r bufs rowss H _ IH]; constructor; auto. eapply holds_allowed; eauto. }
  cbn zeta. set (exact := (N.of_nat (cap * sz) =? B)%N).
  pose proof (pe_encodes_ok collect p sz B cap nl Hs HF HB Hz Hp bufs rowss (pe_new B nl) [] 0%N [] HH (pe_inv_new B nl)) as PE.
  specialize (PE ltac:(cbn; lia) (fun _ => eq_refl)).
  change (2 ^ 32 - 2)%N with 4294967294%N in PE. cbn [length Nat.add] in PE.
  assert (HT2 : (N.of_nat (sum_len rowss) <= 4294967294)%N) by (clear -HT; lia). specialize (PE HT2). cbn zeta in PE. fold exact in PE.
  destruct (col_run_blocks nl exact cap Hc rowss [] HA) as [CB1 CB2].
  set (run := col_run nl exact cap [] rowss) in *.
  rewrite emits_collect in PE. unfold pe_column, pe_finish.
  destruct (N.leb_spec (0 + total (map fst (fst run))) u32_max) as [L|L].
  - cbn [orb app] in PE. destruct (snd run) as [held|].
    + destruct PE as (e' & -> & I & A & LH). rewrite bind_ret.
      assert (HS : num_vals held <= length held) by apply somes_length_le.
      pose proof (pe_flush_ok collect p sz B nl e' held (0 + total (map fst (fst run)))%N (labelled sz nl 0 (fst run)) ltac:(lia)) as PF.
      specialize (PF ltac:(change (2 ^ 31)%N with 2147483648%N in Hz; unfold u64_lim; nia) I).
      change (2 ^ 32)%N with 4294967296%N in PF. specialize (PF ltac:(lia)).
      change (match held with [] => [] | _ => [(length held, held)] end) with (flush_block held) in PF.
      rewrite emits_collect in PF. rewrite map_app, total_app.
      assert (GOOD : Forall (fun w => ends_some w /\ rows_allowed nl w /\ (N.of_nat (length w) <= 2 ^ 32 - 8)%N /\ fit sz w)
                       (map snd (fst run ++ flush_block held))).
      { change (2 ^ 32 - 8)%N with 4294967288%N. rewrite map_app. apply Forall_app. split.
        - eapply Forall_impl; [|exact CB1]. cbn. intros w (_ & W1 & W2 & W3 & W4). repeat (split; [assumption||lia|]).
          unfold fit. apply Forall_forall. intros v Hin. apply W4 in Hin. clear -Hin HV.
          induction HV as [|r rowss Hr _ IH]; [destruct Hin|]. cbn [concat] in Hin. rewrite somes_app, in_app_iff in Hin.
          destruct Hin as [Hin|Hin]; [|auto]. unfold fit in Hr. rewrite Forall_forall in Hr. auto.
        - destruct held as [|x h0] eqn:EH; [constructor|]. cbn [flush_block map snd]. rewrite <- EH in *.
          constructor; [|constructor]. destruct I as (_ & I2 & I3 & _). split; [exact I3|]. split; [exact I2|]. split; [lia|].
          unfold fit. apply Forall_forall. intros v Hin. apply CB2 in Hin. destruct Hin as [[]|Hin]. clear -Hin HV.
          induction HV as [|r rowss Hr _ IH]; [destruct Hin|]. cbn [concat] in Hin. rewrite somes_app, in_app_iff in Hin.
          destruct Hin as [Hin|Hin]; [|auto]. unfold fit in Hr. rewrite Forall_forall in Hr. auto. }
      rewrite N.add_0_l in *.
      destruct (N.leb_spec (total (map fst (fst run)) + total (map fst (flush_block held))) u32_max) as [L2|L2]; cbn [orb] in PF.
      * destruct PF as (e2 & -> & _). rewrite bind_ret.
        eexists. split; [reflexivity|]. rewrite <- (N.add_0_l (total (map fst (fst run)))), <- labelled_app. split.
        -- rewrite labelled_ids, map_app. reflexivity.
        -- apply read_labelled; auto; lia.
      * destruct (flush_block held) eqn:EFB; [cbn in L2; lia|]. rewrite PF. reflexivity.
    + rewrite N.add_0_l in L. destruct (N.leb_spec (total (map fst (fst run))) u32_max); [|lia]. rewrite PE. reflexivity.
  - rewrite N.add_0_l in L. cbn [orb] in PE.
    assert (NE : match fst run with [] => true | _ => false end = false) by (destruct (fst run); [cbn in L; lia|reflexivity]).
    rewrite NE in PE. rewrite PE. cbn [bind].
    destruct (snd run) as [held|].
    + rewrite map_app, total_app. destruct (N.leb_spec (total (map fst (fst run)) + total (map fst (flush_block held))) u32_max); [lia|reflexivity].
    + destruct (N.leb_spec (total (map fst (fst run))) u32_max); [lia|reflexivity].
Qed.
Print Assumptions C29_column_exact.
