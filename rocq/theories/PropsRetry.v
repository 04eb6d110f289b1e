(** Property C55 at any point of a column of fixed-width values
    (raw/primitive_enc.rs). *)
From Verif Require Import Base BaseProofs Spec SpecRows Varint VarintProofs Buffers Observe BitmapProofs BuffersProofs
  Rle Sink PrimEnc ReadBlock ObserveEnc RowsProofs BlockProofs PrimEncProofs PrimRunProofs PropsPrim PropsPrimRows PropsPrimIds PropsPrimErr.
Open Scope nat_scope.

(** Held back rows end with a value. *)
Lemma col_run_held {T} nl cap : 0 < cap -> forall rowss (pending : list (option T)) held,
  (pending = [] \/ 0 < num_vals pending) -> snd (col_run nl true cap pending rowss) = Some held -> held = [] \/ 0 < num_vals held.
Proof.
  intros Hc. induction rowss as [|r rowss IH]; intros pending held HP H; cbn [col_run] in H.
  - injection H as <-. exact HP.
  - destruct pending as [|x l].
    + cbn [snd] in H. apply IH in H; [exact H|]. destruct (rest_spec cap r Hc) as [_ R2].
      destruct (rest_of cap r) as [|y l']; [left; reflexivity|right]. apply nonempty_num; [exact R2|discriminate].
    + rewrite orb_true_r in H. apply IH in H; [exact H|]. right. destruct HP as [HP|HP]; [discriminate|].
      rewrite num_vals_app. lia.
Qed.

Lemma labelled_shift sz nl d items : Forall (fun i => 0 < fst i) items -> forall from,
  labelled sz nl (from + d) items = map (fun b => (fst b + d, snd b)%N) (labelled sz nl from items).
Proof.
  induction 1 as [|[n w] l Hn _ IH]; intros from; cbn [labelled map]; [reflexivity|]. cbn [fst] in Hn. f_equal; [cbn [fst snd]; f_equal; lia|].
  rewrite <- IH. f_equal. lia.
Qed.

Lemma labelled_firstn sz nl : forall k from l, firstn k (labelled sz nl from l) = labelled sz nl from (firstn k l).
Proof. induction k as [|k IH]; intros from [|[n w] l]; cbn; auto. f_equal. apply IH. Qed.

Lemma counted_pos {T} nl cap (rows : list (option T)) : 0 < cap -> Forall (fun i => 0 < fst i) (counted nl 0 (cut cap rows)).
Proof.
  intros Hc. pose proof (windows_spec (S (num_vals rows)) cap rows) as W. fold (cut cap rows) in W. clear -W Hc.
  generalize 0 at 2. induction W as [|w ws [W1 _] _ IH]; intros pos; cbn [counted]; constructor; [|apply IH].
  cbn [fst]. pose proof (somes_length_le w). fold (num_vals w) in H. destruct nl; lia.
Qed.

(** C55, any buffer of a column whose earlier buffers were written.
    - If rows are held back, then encoding the buffer does not write anything:
      it succeeds with every sink.
    - Otherwise, if the sink rejects the block after [k] others, then the error
      is reported and the blocks before are those of an undisturbed run; encoding
      the buffer again writes all of its blocks, the first [k] of them a second
      time, under identifiers shifted by the rows counted for the [k+1] blocks of
      the first attempt. *)
Theorem C55_retry_later_exact :
  forall p sz B cap nl before rowss e0 s0 buf rows,
  2 <= sz -> (N.of_nat sz < 2 ^ 31)%N -> (0 < B < 2 ^ 32)%N -> N.of_nat (cap * sz) = B ->
  Forall2 (fun b rows => pb_holds b nl rows) before rowss -> pb_holds buf nl rows ->
  (total_rows (rowss ++ [rows]) <= 2 ^ 32 - 2)%N ->
  pe_encodes collect p sz (pe_new B nl) before [] = Ret (e0, s0, Ok tt) ->
  let counts := map fst (counted nl 0 (cut cap rows)) in
  if 0 <? pb_len (pe_remaining e0) then
    forall (S : Type) (wr : sink_fn S) s, exists e1, pe_encode wr p sz (Datatypes.S (pb_len buf)) e0 buf s = Ret (e1, s, Ok tt)
  else forall k, k < length counts -> (pe_rows e0 + 2 * total counts <= u32_max)%N ->
    exists blocks e1 e2 e3 written,
      pe_encode collect p sz (Datatypes.S (pb_len buf)) e0 buf [] = Ret (e1, blocks, Ok tt) /\ length blocks = length counts
      /\ pe_encode fails_once p sz (Datatypes.S (pb_len buf)) e0 buf (Some k, s0) = Ret (e2, (None, s0 ++ firstn k blocks), Err)
      /\ pe_encode fails_once p sz (Datatypes.S (pb_len buf)) e2 buf (None, s0 ++ firstn k blocks) = Ret (e3, (None, s0 ++ firstn k blocks ++ written), Ok tt)
      /\ written = map (fun b => (fst b + total (firstn (Datatypes.S k) counts), snd b)%N) blocks.
Proof.
  intros p sz B cap nl before rowss e0 s0 buf rows Hs Hz HB HF HH HR HT HE counts.
  assert (Hc : 0 < cap) by (apply (cap_pos sz B cap); lia).
  assert (FIT : fits sz B cap) by (unfold fits; clear -HF Hs; lia).
  assert (TS0 : (total_rows rowss + N.of_nat (length rows) <= 4294967294)%N).
  { clear -HT. unfold total_rows in *. rewrite concat_app, app_length in HT. cbn [concat] in HT. rewrite app_nil_r in HT. change (2 ^ 32 - 2)%N with 4294967294%N in HT. lia. }
  assert (HT0 : (total_rows rowss <= 2 ^ 32 - 2)%N) by (change (2 ^ 32 - 2)%N with 4294967294%N; clear -TS0; lia).
  pose proof (encodes_collect p sz B cap nl before rowss Hs Hz HB HF HH HT0) as (run & held & ER & X).
  destruct (N.leb_spec (total (map fst run)) u32_max) as [L|L]; [|rewrite HE in X; discriminate].
  destruct X as (e & E & I & A & LH & H64). rewrite HE in E. injection E as <- ->.
  assert (HEL : length held <= length (concat rowss)).
  { pose proof (run_rows_le nl true cap Hc rowss [] run held ER) as Q. rewrite app_length in Q. cbn [length] in Q. clear -Q. lia. }
  assert (LB : pb_len buf = num_vals rows) by (apply pb_holds_counts in HR; tauto).
  assert (HLR : (N.of_nat (length rows) <= 4294967294)%N) by (clear -TS0; lia).
  pose proof (pe_inv_len _ _ _ _ _ I) as [HL0 HRows].
  assert (HH2 : held = [] \/ 0 < num_vals held) by (apply (col_run_held nl cap Hc rowss [] held); [left; reflexivity|rewrite ER; reflexivity]).
  rewrite HL0. destruct (Nat.ltb_spec 0 (num_vals held)) as [NV|NV].
  - intros S wr s.
    pose proof (pe_encodes_ok wr p sz B cap nl Hs FIT HB Hz (or_intror HF) [buf] [rows] e0 held (total (map fst run)) s
      ltac:(constructor; [exact HR|constructor]) I A) as PE.
    assert (C1 : cap = 1 -> held = []).
    { intros ->. clear -ER Hc. cut (forall rowss (pending : list (option BinNums.N)) run held, pending = [] -> col_run nl true 1 pending rowss = (run, Some held) -> held = []); [intros Q; exact (Q rowss [] run held eq_refl ER)|].
      clear. induction rowss as [|r rowss IH]; intros pending run held -> H; cbn [col_run] in H; [injection H as _ <-; reflexivity|].
      destruct (col_run nl true 1 (rest_of 1 r) rowss) as [run' h'] eqn:E. cbn [fst snd] in H. injection H as _ ->. eapply IH; [|exact E].
      destruct (rest_spec 1 r ltac:(lia)) as [R1 R2]. destruct (rest_of 1 r) as [|y l]; [reflexivity|]. pose proof (nonempty_num _ R2 ltac:(discriminate)). lia. }
    specialize (PE C1). change (2 ^ 32 - 2)%N with 4294967294%N in PE.
    assert (PL : (N.of_nat (length held + sum_len [rows]) <= 4294967294)%N).
    { unfold sum_len. cbn [concat]. rewrite app_nil_r. unfold total_rows in TS0. clear -TS0 HEL. lia. }
    specialize (PE PL). cbn zeta in PE. rewrite HF, N.eqb_refl in PE. destruct held as [|x l]; [cbn in NV; lia|].
    cbn [col_run] in PE. rewrite orb_true_r in PE. cbn [fst snd emits] in PE. destruct PE as (e' & PE & _).
    cbn [pe_encodes] in PE. exists e'.
    destruct (pe_encode wr p sz (Datatypes.S (pb_len buf)) e0 buf s) as [[[e1 s1] [[]|]]|k|]; cbn [bind] in PE; try discriminate. injection PE as <- <-. reflexivity.
  - destruct HH2 as [-> |HH2]; [|lia]. intros k Hk HM. set (items := counted nl 0 (cut cap rows)) in *.
    assert (RE : pe_rows e0 = total (map fst run)) by apply I. rewrite RE in HM.
    set (from := total (map fst run)) in *. set (s0 := labelled sz nl 0 run) in *.
    assert (Hc32 : (N.of_nat cap < 2 ^ 32)%N) by (clear -HF HB Hs; change (2 ^ 32)%N with 4294967296%N in *; nia).
    assert (Z : 0 < sz) by (clear -Hs; lia). assert (FU : num_vals rows < S (pb_len buf)) by (clear -LB; lia).
    assert (HL : (N.of_nat (length rows) <= 2 ^ 32 - 2)%N) by exact HLR.
    assert (TS : (total (firstn (S k) counts) <= total counts)%N).
    { rewrite <- (firstn_skipn (S k) counts) at 2. rewrite total_app. lia. }
    pose proof (pe_encode_empty collect p sz B cap nl (S (pb_len buf)) e0 from buf rows [] Z FIT Hc Hc32 Hz I HR HL FU) as P0.
    fold items in P0. rewrite emits_collect in P0. fold counts in P0.
    destruct (N.leb_spec (from + total counts) u32_max) as [_|X]; [|clear -X HM; lia]. cbn [orb app] in P0.
    destruct P0 as (e1 & E1 & _).
    pose proof (pe_encode_empty fails_once p sz B cap nl (S (pb_len buf)) e0 from buf rows (Some k, s0) Z FIT Hc Hc32 Hz I HR HL FU) as P1.
    fold items in P1. rewrite emits_fails_once in P1.
    2:{ unfold counts in Hk. rewrite map_length in Hk. exact Hk. }
    2:{ rewrite <- firstn_map. fold counts. clear -TS HM. lia. }
    destruct P1 as (e2 & E2 & I2).
    pose proof (pe_encode_empty fails_once p sz B cap nl (S (pb_len buf)) e2 _ buf rows (None, s0 ++ firstn k (labelled sz nl from items)) Z FIT Hc Hc32 Hz I2 HR HL FU) as P2.
    fold items in P2. rewrite emits_recovered in P2.
    2:{ rewrite <- firstn_map. fold counts. clear -TS HM. lia. }
    destruct P2 as (e3 & E3 & _). exists (labelled sz nl from items), e1, e2, e3, (labelled sz nl (from + total (map fst (firstn (S k) items))) items).
    split; [exact E1|]. split.
    { unfold counts. rewrite map_length. clear. generalize from. induction items as [|[n w] l IH]; intros f; cbn [labelled length]; [reflexivity|]. rewrite IH. reflexivity. }
    split; [rewrite labelled_firstn; exact E2|]. split; [rewrite app_assoc; exact E3|].
    rewrite <- firstn_map. fold counts. apply labelled_shift. apply counted_pos, Hc.
Qed.
Print Assumptions C55_retry_later_exact.

(** After one full block, the second of three blocks is rejected; and after a
    held back row nothing is written. *)
Example C55_retry_later_witness :
  match pb_fill true [[Some 9; Some 8]; [Some 1; None; Some 2; Some 3; Some 4; Some 5; Some 6]; [Some 7]]%N with
  | Ret [a; b; c] =>
      match pe_encodes collect Debug 4 (pe_new 8 true) [a] [] with
      | Ret (e0, s0, Ok _) =>
          pb_len (pe_remaining e0) = 0 /\ map fst s0 = [1]%N
          /\ match pe_encode fails_once Debug 4 7 e0 b (Some 1, s0) with
             | Ret (e1, (None, s1), Err) =>
                 map fst s1 = [1; 4]%N
                 /\ match pe_encode fails_once Debug 4 7 e1 b (None, s1) with
                    | Ret (_, (_, s2), Ok _) => map fst s2 = [1; 4; 12; 17; 24]%N
                    | _ => False end
             | _ => False end
      | _ => False end
      /\ match pe_encodes collect Debug 4 (pe_new 8 true) [c] [] with
         | Ret (e0, [], Ok _) =>
             pb_len (pe_remaining e0) = 1
             /\ match pe_encode fails_once Debug 4 7 e0 b (Some 0, []) with Ret (_, (Some 0, []), Ok _) => True | _ => False end
         | _ => False end
  | _ => False end.
Proof. vm_compute. repeat split. Qed.
