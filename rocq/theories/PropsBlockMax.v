(** C79: no block is much larger than the block size (raw/primitive_enc.rs,
    raw/binary_enc.rs). *)
From Verif Require Import Base BaseProofs Spec SpecRows SpecBin Varint VarintProofs Buffers Observe BitmapProofs BuffersProofs
  Rle RleProofs Offsets OffsetsProofs Sink PrimEnc BinEnc ObserveEnc ReadBlock ReadBinBlock RowsProofs BlockProofs PrimEncProofs PrimRunProofs
  PropsPrim PropsPrimRows PropsPrimIds PropsPrimAny PropsPrimErr PropsPrimAll BinBlockProofs BinEncProofs BinRunProofs PropsBin PropsBinRows PropsBinPending.
Open Scope nat_scope.

(** ** Binary columns *)

(** No item of [rows] is longer than [M]. *)
Definition items_up_to (M : nat) (rows : list (option (list N))) : Prop := forall v, In (Some v) rows -> length v <= M.

Lemma up_to_somes M rows : items_up_to M rows -> Forall (fun v => length v <= M) (somes rows).
Proof.
  intros H. apply Forall_forall. intros v Hv. apply H. clear H. induction rows as [|[x|] rows IH]; cbn in Hv; [contradiction| |].
  - destruct Hv as [->|Hv]; [left; reflexivity|right; auto].
  - right; auto.
Qed.

(** Items that just reach [m] bytes are less than one item beyond it. *)
Lemma fill_size items m k M : Forall (fun v => length v <= M) items -> fill m items = Some k ->
  (m <= N.of_nat (cbytes (firstn k items)))%N /\ (k = 0 \/ (N.of_nat (cbytes (firstn k items)) < m + N.of_nat M)%N).
Proof.
  intros HM H. apply fill_some in H. destruct H as (H1 & H2 & H3). split; [exact H2|]. destruct k as [|k]; [left; reflexivity|right].
  specialize (H3 k ltac:(lia)). destruct (nth_error items k) as [v|] eqn:EV; [|apply nth_error_None in EV; lia].
  assert (E : firstn (S k) items = firstn k items ++ [v]).
  { clear -EV. revert k EV. induction items as [|x items IH]; intros [|k] EV; cbn in *; try discriminate; [congruence|].
    f_equal. apply IH. exact EV. }
  rewrite E, cbytes_app. rewrite Forall_forall in HM. specialize (HM v (nth_error_In _ _ EV)). unfold cbytes at 2. cbn [concat]. rewrite app_nil_r. lia.
Qed.

(** The data of a block: at least [B] bytes and less than an item more. *)
Definition sized (B : N) (M : nat) (it : bin_item) : Prop :=
  (B <= N.of_nat (bytes_of (it_rows it) + length (it_extra it)) < B + N.of_nat M)%N.

Lemma up_to_drop M k rows : items_up_to M rows -> items_up_to M (drop_vals k rows).
Proof. intros H v Hv. apply H. rewrite <- (take_drop k rows). apply in_or_app. right. exact Hv. Qed.

Lemma up_to_take M k rows : items_up_to M rows -> items_up_to M (take_vals k rows).
Proof. intros H v Hv. apply H. rewrite <- (take_drop k rows). apply in_or_app. left. exact Hv. Qed.

Lemma bin_cut_sized p nl B M : (0 < B)%N -> forall f s pos rows, items_up_to M rows ->
  Forall (sized B M) (fst (bin_cut p nl f B s pos rows)).
Proof.
  intros HB. induction f as [|f IH]; intros s pos rows HM; cbn [bin_cut]; [constructor|].
  destruct (fill B (somes rows)) as [q|] eqn:EF; [|constructor]. destruct (Nat.leb_spec q s) as [L|L]; [constructor|].
  destruct (fill_size _ _ _ _ (up_to_somes _ _ HM) EF) as (K1 & K2). cbn [fst]. constructor; [|apply IH, up_to_drop, HM].
  unfold sized. cbn [it_rows it_extra]. unfold bytes_of. rewrite take_somes, <- app_length, <- concat_app, <- firstn_skipn_add.
  replace (q - s + s) with q by lia. unfold cbytes in *. lia.
Qed.

Lemma bin_step_sized p nl B M past R b : (0 < B)%N -> ends_some R -> (N.of_nat (bytes_of R) < B)%N -> items_up_to M b ->
  Forall (sized B M) (fst (snd (bin_step p nl B past R b))).
Proof.
  intros HB HE HR HM. unfold bin_step. destruct R as [|x R0]; [apply bin_cut_sized; assumption|].
  set (R := x :: R0) in *. clearbody R.
  destruct (fill (B - N.of_nat (bytes_of R)) (somes b)) as [k|] eqn:EF; [|constructor]. cbv zeta. cbn [fst snd].
  destruct (fill_size _ _ _ _ (up_to_somes _ _ HM) EF) as (K1 & K2). destruct (fill_some _ _ _ EF) as (K3 & _ & _).
  assert (WE : ends_some (R ++ take_vals k b)).
  { destruct (take_vals k b) eqn:ET; [rewrite app_nil_r; exact HE|]. rewrite <- ET. apply ends_app; [apply take_ends; exact K3|congruence]. }
  destruct (seen_spec nl past _ WE) as (S1 & _).
  constructor; [|apply bin_cut_sized; [exact HB|apply up_to_drop, HM]].
  unfold sized. cbn [it_rows it_extra length]. unfold bytes_of at 1 2. rewrite S1. fold (bytes_of (R ++ take_vals k b)).
  rewrite bytes_app. unfold bytes_of at 2 4. rewrite take_somes. fold (cbytes (firstn k (somes b))).
  destruct K2 as [->|K2]; [cbn in K1; lia|lia].
Qed.

Lemma bin_run_sized p nl B M : (0 < B)%N -> forall rowss past R, ends_some R -> (N.of_nat (bytes_of R) < B)%N ->
  Forall (items_up_to M) rowss -> Forall (sized B M) (fst (snd (bin_run p nl B past R rowss))).
Proof.
  intros HB. induction rowss as [|b rowss IH]; intros past R HE HR HF; cbn [bin_run]; [constructor|].
  apply Forall_cons_iff in HF. destruct HF as [HF1 HF2]. pose proof (bin_step_sized p nl B M past R b HB HE HR HF1) as SB.
  destruct (bin_step p nl B past R b) as [past1 [its [R1|k]]] eqn:ES; cbn [fst snd] in *; [|exact SB].
  apply bin_step_held in ES; [|exact HE|exact HR]. destruct ES as (A1 & A2 & _). apply Forall_app. split; [exact SB|apply IH; assumption].
Qed.

(** The size in the header of a binary block. *)
Lemma bin_block_size p nl R extra : (N.of_nat (bytes_of R + length extra) < u64_lim)%N ->
  data_size p (bin_block nl R extra) (N.of_nat (bytes_of R + length extra)).
Proof.
  intros H. unfold bin_block. eexists. split; [apply decode_varint_bytes; exact H|].
  rewrite !app_length. unfold bytes_of. lia.
Qed.

(** C79 for binary columns: every block has less than the block size and one
    more item of data, and every block but the last at least the block size. *)
Theorem C79_binary_partial :
  forall p B nl rowss M blocks res, (0 < B)%N -> Forall (rows_allowed nl) rowss ->
  Forall (fun r => B + N.of_nat (length (concat (somes r))) < 2 ^ 32)%N rowss ->
  (N.of_nat (length (concat rowss)) <= 2 ^ 32 - 2)%N ->
  (forall item, In (Some item) (concat rowss) -> length item <= M) ->
  be_column_rows p B nl rowss = Ret (blocks, res) ->
  Forall (fun b => exists size, data_size p (snd b) size /\ (size < B + N.of_nat M)%N) blocks
  /\ Forall (fun b => exists size, data_size p (snd b) size /\ (B <= size)%N) (removelast blocks).
Proof.
  intros p B nl rowss M blocks res HB HA HF HL HM HE. change (2 ^ 32)%N with 4294967296%N in *. change (4294967296 - 2)%N with 4294967294%N in *.
  assert (HF2 : Forall (fun r => B + N.of_nat (bytes_of r) <= u32_max)%N rowss).
  { eapply Forall_impl; [|exact HF]. unfold u32_max, bytes_of. cbn. intros; lia. }
  pose proof (be_column_rows_ok p B nl rowss HB HA HF2 HL) as BC. cbn zeta in BC.
  assert (HI : Forall (items_up_to M) rowss).
  { apply Forall_forall. intros r Hr v Hv. apply HM. apply in_concat. exists r. auto. }
  pose proof (bin_run_sized p nl B M HB rowss [] [] ltac:(left; reflexivity) ltac:(cbn; lia) HI) as RS.
  destruct (writable 0 _) eqn:EW; [|destruct BC as [k BC]; rewrite BC in HE; discriminate].
  rewrite BC in HE. unfold bin_blocks in HE. destruct (bin_run p nl B [] [] rowss) as [past [its en]] eqn:ER. cbn [fst snd] in *.
  destruct en as [R|k]; cbn [fst snd] in HE; [|discriminate]. injection HE as <- <-. clear BC EW HF HL HM HI.
  assert (BB : rowss <> [] -> (B <= u32_max)%N).
  { destruct HF2 as [|r rowss Hr _]; [congruence|]. intros _. lia. }
  assert (LIM : rowss <> [] -> forall it, In it its -> (N.of_nat (bytes_of (it_rows it) + length (it_extra it)) < u64_lim)%N).
  { intros NE it Hit. assert (X : bounded its (sum_len rowss) (N.to_nat u32_max)).
    { set (M2 := N.to_nat (u32_max - B)). assert (HM2 : Forall (fun r => bytes_of r <= M2) rowss).
      { eapply Forall_impl; [|exact HF2]. cbn. unfold M2. intros; lia. }
      pose proof (bin_run_bounded p nl B M2 HB rowss [] [] ltac:(left; reflexivity) ltac:(cbn; lia) HM2) as RB.
      rewrite ER in RB. cbn [fst snd length Nat.add] in RB. eapply bounded_le; [exact RB|lia|unfold M2; specialize (BB NE); lia]. }
    unfold bounded in X. rewrite Forall_forall in X. destruct (X it Hit) as (_ & _ & X3). unfold u32_max, u64_lim in *. lia. }
  assert (ITS : forall from, Forall (fun b => exists size, data_size p (snd b) size /\ (B <= size < B + N.of_nat M)%N) (blabelled nl from its)).
  { destruct rowss as [|r0 rowss0] eqn:EQ; [cbn in ER; injection ER as _ <- _; intros; constructor|]. rewrite <- EQ in *.
    assert (NE : rowss <> []) by (rewrite EQ; discriminate). specialize (LIM NE). clear -LIM RS.
    induction RS as [|it its (X1 & X2) _ IH]; intros from; cbn [blabelled]; constructor.
    - cbn [snd]. eexists. split; [apply bin_block_size; apply LIM; left; reflexivity|]. lia.
    - apply IH. intros it' H. apply LIM. right. exact H. }
  assert (BA : forall from, exists from', blabelled nl from (its ++ bin_last nl past R) = blabelled nl from its ++ blabelled nl from' (bin_last nl past R)).
  { clear. induction its as [|it its IH]; intros from; cbn [app blabelled]; [eexists; reflexivity|].
    destruct (IH (from + N.of_nat (it_count it))%N) as [f ->]. eexists. reflexivity. }
  destruct (BA 0%N) as [from ->].
  pose proof (bin_run_held p nl B rowss [] [] past its R ltac:(left; reflexivity) ER ltac:(cbn; lia)) as (A1 & A2 & _).
  destruct (seen_spec nl past R A2) as (S1 & _).
  assert (LAST : blabelled nl from (bin_last nl past R) = [] \/
    exists id size block, blabelled nl from (bin_last nl past R) = [(id, block)] /\ data_size p block size /\ (size < B)%N).
  { unfold bin_last. destruct R as [|x R0] eqn:EQR; [left; reflexivity|right]. rewrite <- EQR in *. cbn [blabelled it_rows it_extra it_count].
    assert (NE : rowss <> []) by (intros ->; cbn in ER; injection ER as _ _ E; congruence).
    assert (EB : bytes_of (seen nl past R) = bytes_of R) by (unfold bytes_of; rewrite S1; reflexivity).
    eexists. exists (N.of_nat (bytes_of (seen nl past R) + @length N [])). eexists. split; [reflexivity|]. split.
    - apply bin_block_size. rewrite EB. specialize (BB NE). cbn [length]. unfold u32_max, u64_lim in *. lia.
    - rewrite EB. cbn [length]. lia. }
  specialize (ITS 0%N). destruct LAST as [-> |(id & size & block & -> & D & L)].
  - rewrite app_nil_r. split; [eapply Forall_impl; [|exact ITS]; intros b (size & D & L); exists size; split; [exact D|lia]|].
    assert (X : forall (P : N * list N -> Prop) l, Forall P l -> Forall P (removelast l)).
    { clear. intros P l H. induction H as [|x l Hx Hl IH]; [constructor|]. cbn [removelast]. destruct l; constructor; auto. }
    apply X. eapply Forall_impl; [|exact ITS]. intros b (size & D & L). exists size. split; [exact D|lia].
  - rewrite removelast_last. split.
    + apply Forall_app. split; [eapply Forall_impl; [|exact ITS]; intros b (size' & D' & L'); exists size'; split; [exact D'|lia]|].
      constructor; [|constructor]. exists size. split; [exact D|lia].
    + eapply Forall_impl; [|exact ITS]. intros b (size' & D' & L'). exists size'. split; [exact D'|lia].
Qed.
Print Assumptions C79_binary_partial.

(** Block size 4, items of up to three bytes: blocks of 5, 4 and 2 bytes. *)
Example C79_witness :
  match be_column_rows Debug 4 true [[Some [1; 2]; None; Some [3; 4; 5]; Some [6]]; [None; Some [7]; Some [8]; Some [9]]; [Some [1; 2]]]%N with
  | Ret (blocks, Ok _) => map (fun b => decode_varint Debug (snd b)) blocks = map (fun size => Ret (Ok (size, 1))) [5; 4; 2]%N
  | _ => False end.
Proof. vm_compute. reflexivity. Qed.

(** Not so once a write failed and overflows go unnoticed: more is held back than
    a block takes, everything that follows is held back too, and makes one block
    in the end.  Here the block size is 4 bytes, items have three, and the block
    has 66 bytes. *)
Theorem C79_binary_after_error_refuted :
  match bb_fill false [[Some [1; 2; 3]]; [Some [4; 5; 6]]; repeat (Some [7; 8; 9]) 20]%N with
  | Ret bufs =>
      match be_tries fails_once Release (be_new 4 false) bufs (Some 0, []) with
      | Ret (e, s, results) => results = [Ok tt; Err; Ok tt]
          /\ match be_flush fails_once Release e s with
             | Ret (_, (_, [(_, block)]), Ok _) => decode_varint Release block = Ret (Ok (66%N, 1))
             | _ => False end
      | _ => False end
  | _ => False end.
Proof. vm_compute. repeat split. Qed.
Print Assumptions C79_binary_after_error_refuted.

(** ** Fixed-width columns *)

(** C79 for columns of values of a fixed width: with overflow checks, or if the
    block size is a multiple of the value size, no block has as much as the block
    size and one more value. *)
Lemma col_all_upper {T} nl checked sz B cap : 0 < cap -> (B <= N.of_nat (cap * sz))%N -> checked = true \/ N.of_nat (cap * sz) = B ->
  forall rowss past (held : list (option T)), ends_some held -> num_vals held <= cap ->
  let run := col_all nl checked sz B cap past held rowss in
  Forall (fun w => num_vals w <= cap) (map snd (fst run))
  /\ match snd run with Some (past', held') => ends_some held' /\ num_vals held' <= cap | None => True end.
Proof.
  intros Hc HF Hp. cbn zeta.
  assert (CUT : forall (b : list (option T)) pos, Forall (fun w => num_vals w <= cap) (map snd (SpecRows.counted nl pos (cut cap b)))).
  { intros b pos. rewrite counted_snd. pose proof (windows_spec (S (num_vals b)) cap b) as W. fold (cut cap b) in W.
    eapply Forall_impl; [|exact W]. cbn. intros w [A _]. lia. }
  induction rowss as [|b rowss IH]; intros past held HE HN; cbn [col_all]; [split; [constructor|split; assumption]|].
  destruct (rest_spec cap b Hc) as [RS1 RS2].
  destruct held as [|x h].
  - cbn [fst snd]. destruct (IH past (rest_of cap b) RS2 ltac:(lia)) as [I1 I2]. rewrite map_app. split; [|exact I2]. apply Forall_app. split; [apply CUT|exact I1].
  - set (held := x :: h) in *. clearbody held.
    destruct (N.ltb_spec B (N.of_nat (num_vals held * sz))) as [L|L].
    + destruct checked; [cbn [andb fst snd map]; split; [constructor|exact I]|]. destruct Hp as [Hp|Hp]; [discriminate|].
      exfalso. assert (num_vals held * sz <= cap * sz) by nia. lia.
    + cbn [andb]. cbv zeta. set (k := min (cap - num_vals held) (num_vals b)).
      assert (EH : ends_some (held ++ take_vals k b)).
      { destruct (take_vals k b) eqn:ET; [rewrite app_nil_r; exact HE|]. rewrite <- ET. apply ends_app; [apply take_ends; unfold k; unfold num_vals; lia|congruence]. }
      assert (NH : num_vals (held ++ take_vals k b) <= cap) by (rewrite num_vals_app, num_take; unfold k; lia).
      destruct (N.of_nat (num_vals (held ++ take_vals k b)) <? B)%N; [apply IH; assumption|].
      destruct (rest_spec cap (drop_vals k b) Hc) as [RD1 RD2].
      destruct (IH ((held ++ take_vals k b) :: past) (rest_of cap (drop_vals k b)) RD2 ltac:(lia)) as [I1 I2]. cbn [fst snd map]. split; [|exact I2].
      destruct (seen_spec nl past _ EH) as (S1 & _). constructor; [unfold num_vals; rewrite S1; exact NH|].
      rewrite map_app. apply Forall_app. split; [apply CUT|exact I1].
Qed.

Theorem C79_fixed_width_partial :
  forall p sz B cap nl bufs rowss written res,
  0 < sz -> (N.of_nat sz < 2 ^ 31)%N -> (0 < B < 2 ^ 32)%N ->
  (B <= N.of_nat (cap * sz) < B + N.of_nat sz)%N ->
  p = Debug \/ N.of_nat (cap * sz) = B ->
  Forall2 (fun b rows => pb_holds b nl rows) bufs rowss ->
  (total_rows rowss <= 2 ^ 32 - 8)%N -> Forall (fit sz) rowss ->
  pe_column p sz B nl bufs = Ret (written, res) ->
  exists blocks, reads_blocks p sz nl written blocks
    /\ Forall (fun w => N.of_nat (length (somes w) * sz) < B + N.of_nat sz)%N blocks.
Proof.
  intros p sz B cap nl bufs rowss written res Hs Hz HB HF Hp HH HT HV HE.
  pose proof (C29_every_column_exact p sz B cap nl bufs rowss Hs Hz HB HF HH HT HV) as X. cbn zeta in X.
  assert (Hc : 0 < cap) by (destruct HF; destruct cap; cbn in *; lia).
  assert (Hp2 : checks p = true \/ N.of_nat (cap * sz) = B) by (destruct Hp as [-> |Hp]; [left; reflexivity|right; exact Hp]).
  pose proof (col_all_upper nl (checks p) sz B cap Hc (proj1 HF) Hp2 rowss [] [] ltac:(left; reflexivity) ltac:(cbn; lia)) as [U1 U2].
  set (run := col_all nl (checks p) sz B cap [] [] rowss) in *.
  destruct (snd run) as [[past held]|].
  2:{ destruct (total (map fst (fst run)) <=? u32_max)%N; rewrite X in HE; discriminate. }
  destruct (_ <=? u32_max)%N; [|rewrite X in HE; discriminate].
  destruct X as (written' & E & _ & RB). rewrite E in HE. injection HE as <- <-. eexists. split; [exact RB|].
  assert (CP : forall w : list (option N), num_vals w <= cap -> (N.of_nat (length (somes w) * sz) < B + N.of_nat sz)%N).
  { intros w Hw. unfold num_vals in Hw. assert (length (somes w) * sz <= cap * sz) by nia. lia. }
  rewrite map_app. apply Forall_app. split; [eapply Forall_impl; [|exact U1]; exact CP|].
  destruct U2 as [U2 U3]. destruct (seen_spec nl past held U2) as (S1 & _).
  assert (NS : num_vals (seen nl past held) <= cap) by (unfold num_vals; rewrite S1; exact U3).
  destruct (seen nl past held) as [|y w]; cbn [flush_block map snd]; constructor; [apply CP; exact NS|constructor].
Qed.
Print Assumptions C79_fixed_width_partial.

(** Values of one byte and of four bytes in blocks of eight. *)
Example C79_fixed_width_witness :
  let v (n : N) := Some n in
  match pe_column_rows Release 4 8 true [[v 1; None; v 2; v 3]; [v 4]; [v 5; v 6]]%N with
  | Ret (written, Ok _) => map (fun b => decode_varint Debug (snd b)) written = map (fun size => Ret (Ok (size, 1))) [8; 8]%N
  | _ => False end
  /\ match pe_column_rows Release 1 8 false [map v [1; 2; 3; 4; 5; 6; 7; 8; 9; 10]; map v [1; 2; 3; 4; 5; 6; 7; 8]]%N with
     | Ret (written, Ok _) => map (fun b => decode_varint Debug (snd b)) written = map (fun size => Ret (Ok (size, 1))) [8; 8; 2]%N
     | _ => False end.
Proof. vm_compute. split; reflexivity. Qed.

(** Not so if the block size is no multiple of the value size and overflows go
    unnoticed: blocks of any size come about.  With a block size of five bytes and
    values of four, two buffers of one value make eight held back bytes; of the
    next buffer, as long as it is, everything goes into one block. *)
Theorem C79_fixed_width_unchecked_refuted :
  forall n, 3 <= n -> (N.of_nat n < 2 ^ 31)%N ->
  exists id block, pe_column_rows Release 4 5 false [[Some 1%N]; [Some 2%N]; repeat (Some 3%N) n] = Ret ([(id, block)], Ok tt)
    /\ read_primitive_block Release 4 false block = Ret (Ok ([Some 1%N; Some 2%N] ++ repeat (Some 3%N) n)).
Proof.
  intros n Hn Hl. change (2 ^ 31)%N with 2147483648%N in Hl.
  set (rowss := [[Some 1%N]; [Some 2%N]; repeat (Some 3%N) n]).
  assert (SR : forall k, somes (repeat (Some 3%N) k) = repeat 3%N k) by (induction k; cbn; [reflexivity|f_equal; auto]).
  assert (HA : Forall (rows_allowed false) rowss).
  { unfold rowss. do 2 (constructor; [right; repeat constructor|]). constructor; [|constructor]. right.
    apply Forall_forall. intros y Hy. apply repeat_spec in Hy. subst y. reflexivity. }
  assert (FL : exists bufs, pb_fill false rowss = Ret bufs /\ Forall2 (fun b rows => pb_holds b false rows) bufs rowss).
  { clear -HA. induction HA as [|r rowss Hr _ (bufs & E & F)]; [exists []; split; [reflexivity|constructor]|].
    destruct (pb_new_rows false r Hr) as (b & E1 & V & VR). exists (b :: bufs). cbn [pb_fill]. rewrite E1, bind_ret, E. split; [reflexivity|].
    constructor; [|exact F]. split; [exact V|]. eapply val_rep_shows; eauto. }
  destruct FL as (bufs & EF & HH). unfold pe_column_rows. rewrite EF, bind_ret.
  assert (HT : (total_rows rowss <= 2 ^ 32 - 8)%N).
  { unfold total_rows, rowss. cbn [concat app length]. rewrite app_length, repeat_length. cbn [length]. change (2 ^ 32 - 8)%N with 4294967288%N. lia. }
  assert (HV : Forall (fit 4) rowss).
  { unfold rowss, fit. repeat constructor. rewrite SR. apply Forall_forall. intros y Hy. apply repeat_spec in Hy. subst y. reflexivity. }
  pose proof (C29_every_column_exact Release 4 5 2 false bufs rowss ltac:(lia) ltac:(reflexivity) ltac:(split; reflexivity) ltac:(split; [discriminate|reflexivity]) HH HT HV) as X.
  assert (ER : col_all false (checks Release) 4 5 2 [] [] rowss
    = ([(n + 2, [Some 1%N; Some 2%N] ++ repeat (Some 3%N) n)], Some ([[Some 1%N; Some 2%N] ++ repeat (Some 3%N) n], []))).
  { unfold rowss.
    assert (NB : num_vals (repeat (Some 3%N) n) = n) by (unfold num_vals; rewrite SR; apply repeat_length).
    assert (TB : take_vals n (repeat (Some 3%N) n) = repeat (Some 3%N) n).
    { rewrite <- NB at 1. clear. induction n as [|n IH]; [reflexivity|]. cbn [repeat num_vals somes length take_vals]. f_equal. exact IH. }
    assert (DB : drop_vals n (repeat (Some 3%N) n) = []).
    { pose proof (take_drop n (repeat (Some 3%N) n)) as TD. rewrite TB in TD. rewrite <- app_nil_r in TD. apply app_inv_head in TD. exact TD. }
    assert (LB : length (repeat (Some 3%N) n) = n) by apply repeat_length.
    clear -NB TB DB LB Hn. generalize dependent (repeat (Some 3%N) n). intros b NB TB DB LB.
    transitivity (let r := col_all false false 4 5 2 [] [Some 1%N; Some 2%N] [b] in (fst r, snd r)); [reflexivity|].
    assert (E : col_all false false 4 5 2 [] [Some 1%N; Some 2%N] [b]
      = ([(n + 2, [Some 1%N; Some 2%N] ++ b)], Some ([[Some 1%N; Some 2%N] ++ b], []))); [|rewrite E; reflexivity].
    cbn [col_all]. change (N.of_nat (num_vals [Some 1%N; Some 2%N] * 4)) with 8%N. change (5 <? 8)%N with true. cbn [andb]. rewrite NB, TB, DB.
    rewrite num_vals_app, NB. change (num_vals [Some 1%N; Some 2%N]) with 2.
    destruct (N.ltb_spec (N.of_nat (2 + n)) 5) as [L|L]; [exfalso; lia|].
    change (cut 2 (@nil (option N))) with (@nil (list (option N))). change (rest_of 2 (@nil (option N))) with (@nil (option N)).
    unfold seen. cbn [SpecRows.counted app fst snd]. f_equal. f_equal. f_equal. cbn [length]. rewrite LB. lia. }
  rewrite ER in X. cbn [fst snd] in X. change (seen false [[Some 1%N; Some 2%N] ++ repeat (Some 3%N) n] []) with (@nil (option N)) in X.
  cbn [flush_block map fst snd total fold_right] in X. rewrite app_nil_r in X. cbn [map fst snd total fold_right] in X.
  destruct (N.leb_spec (N.of_nat (n + 2) + 0) u32_max) as [L|L]; [|unfold u32_max in L; lia].
  destruct X as (written & E & IDS & RB). unfold reads_blocks in RB. cbn [map] in RB.
  destruct written as [|[id block] [|b2 written]]; cbn [map] in RB; try discriminate. exists id, block. split; [exact E|].
  cbn [snd] in RB. injection RB as RB. exact RB.
Qed.
Print Assumptions C79_fixed_width_unchecked_refuted.
