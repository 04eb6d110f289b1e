(** Property C91 after failed writes and panics (raw/primitive_enc.rs,
    raw/binary_enc.rs): the values held back. *)
From Verif Require Import Base BaseProofs Spec SpecRows SpecBin SpecFail Varint VarintProofs Buffers Observe BitmapProofs BuffersProofs
  Rle Offsets Sink PrimEnc BinEnc ObserveEnc RowsProofs BlockProofs PrimEncProofs PrimRunProofs PropsPrimRows BinBlockProofs BinEncProofs BinRunProofs
  PropsPrimAny PropsPrimAll PropsNulls PropsBinFail Caught PropsCaughtBuf PropsCaughtEnc PropsCaughtBin PropsCaughtFix.
Open Scope nat_scope.

Lemma call_fits {S} (wr : sink_fn S) sz nl checked B cap st s c : 0 < cap -> checked = true \/ N.of_nat (cap * sz) = B -> num_vals (cs_held st) <= cap ->
  num_vals (cs_held (fst (fst (col_call wr sz nl checked B cap st s c)))) <= cap.
Proof.
  intros Hc HB HH.
  assert (R : forall (q : bool) (x : list (option N)), num_vals (if q then rest_of cap x else []) <= cap).
  { intros [|] x; [|cbn; lia]. rewrite rest_num by exact Hc. pose proof (Nat.mod_upper_bound (num_vals x) cap). lia. }
  destruct c as [b|]; cbn [col_call].
  2:{ destruct (offer_blocks _ _ _ _ _ _) as [[rows s'] out]. exact HH. }
  destruct (cs_held st) as [|x R0] eqn:EH.
  { destruct (offer_blocks _ _ _ _ _ _) as [[rows s'] out]. apply R. }
  rewrite <- EH in *. clear EH x R0. cbn zeta.
  destruct (N.ltb_spec B (N.of_nat (num_vals (cs_held st) * sz))) as [L|L]; cbn [andb].
  { destruct HB as [->|HB]; [exact HH|]. exfalso. assert (num_vals (cs_held st) * sz <= cap * sz) by (apply Nat.mul_le_mono_r; exact HH). lia. }
  set (k := min (cap - num_vals (cs_held st)) (num_vals b)).
  assert (HK : num_vals (cs_held st ++ take_vals k b) <= cap) by (rewrite num_vals_app, (proj1 (take_num k b ltac:(unfold k; lia))); unfold k; lia).
  clearbody k. destruct (_ <? B)%N; [exact HK|].
  destruct (offer_blocks wr sz nl (cs_rows st) _ s) as [[rows s'] out]. destruct (well out); [|exact HK].
  destruct (offer_blocks wr sz nl rows _ s') as [[rows2 s2] out2]. apply R.
Qed.

Lemma calls_fit {S} (wr : sink_fn S) sz nl checked B cap cs : 0 < cap -> checked = true \/ N.of_nat (cap * sz) = B -> forall st s, num_vals (cs_held st) <= cap ->
  num_vals (cs_held (fst (fst (col_calls wr sz nl checked B cap st s cs)))) <= cap.
Proof.
  intros Hc HB. induction cs as [|c cs IH]; intros st s HH; cbn [col_calls]; [exact HH|].
  pose proof (call_fits wr sz nl checked B cap st s c Hc HB HH) as C. destruct (col_call wr sz nl checked B cap st s c) as [[st1 s1] out]. cbn [fst] in C.
  specialize (IH st1 s1 C). destruct (col_calls wr sz nl checked B cap st1 s1 cs) as [[st2 s2] outs]. exact IH.
Qed.

(** C91 for fixed-width columns, whatever panics or fails: with overflow checks, or
    if the block size is a multiple of the width, no more values are held back than
    make up a block, in whatever build.  Partial: without either see
    [C91_after_errors_refuted]; only the values are counted. *)
Theorem C91_values_held_partial : forall (S : Type) (wr : sink_fn S) p sz B cap nullable calls cs s,
  0 < sz -> (N.of_nat sz < 2 ^ 31)%N -> (0 < B < 2 ^ 32)%N -> (B <= N.of_nat (cap * sz) < B + N.of_nat sz)%N ->
  Forall2 (given nullable) calls cs -> (N.of_nat (brought cs) <= 2 ^ 32 - 2)%N ->
  p = Debug \/ N.of_nat (cap * sz) = B ->
  let e := fst (fst (fix_anyway wr p sz (pe_new B nullable, s) calls)) in
  (N.of_nat (sz * length (pb_values (pe_remaining e))) < B + N.of_nat sz)%N.
Proof.
  intros S wr p sz B cap nl calls cs s Hs Hz HB HF HG HL HP.
  assert (Hc : 0 < cap) by (destruct HF; destruct cap; cbn in *; lia).
  pose proof (fix_runs wr p sz B cap nl _ _ Hs Hz HB HF HG (pe_new B nl) (mk_col [] [] 0) s (pe_has_new B nl)) as X.
  cbn [cs_held length Nat.add] in X. specialize (X HL).
  pose proof (calls_fit wr sz nl (checks p) B cap cs Hc ltac:(destruct HP as [->|HP]; auto) (mk_col [] [] 0) s (Nat.le_0_l _)) as Y. cbn zeta.
  destruct (col_calls wr sz nl (checks p) B cap (mk_col [] [] 0) s cs) as [[st s'] outs]. destruct X as (e' & -> & I & _). cbn [fst] in *.
  destruct I as (-> & _). fold (num_vals (cs_held st)).
  assert (sz * num_vals (cs_held st) <= cap * sz) by (rewrite Nat.mul_comm; apply Nat.mul_le_mono_r; exact Y). lia.
Qed.
Print Assumptions C91_values_held_partial.

Lemma trim_bytes (r : list row) : bytes_of (trim r) = bytes_of r.
Proof. unfold bytes_of. rewrite somes_trim. reflexivity. Qed.

Lemma take_bytes k (r : list row) : bytes_of (take_vals k r) <= bytes_of r /\ bytes_of (drop_vals k r) <= bytes_of r.
Proof. rewrite <- (take_drop k r) at 2 4. rewrite bytes_app. lia. Qed.

Lemma items_fit {S} (wr : sink_fn S) nl B st s c M :
  (N.of_nat (bytes_of (bs_held st)) <= B + N.of_nat M)%N -> bytes_of (call_rows c) <= M ->
  (N.of_nat (bytes_of (bs_held (fst (fst (items_call wr Debug nl B st s c))))) <= B + N.of_nat M)%N.
Proof.
  intros HH HM.
  assert (F : forall past rows s f i pos r, bytes_of r <= M -> (N.of_nat (bytes_of (bs_held (fst (fst (finish_items wr nl past rows s (bin_cut Debug nl f B i pos r)))))) <= B + N.of_nat M)%N).
  { intros past rows s0 f i pos r HR. unfold finish_items. destruct (bin_cut Debug nl f B i pos r) as [items en] eqn:EC. cbn [fst snd].
    destruct (offer_items wr nl rows items s0) as [[rows1 s1] out]. destruct (good out); [|cbn; lia]. destruct en as [R|k]; cbn [fst bs_held]; [|cbn; lia].
    apply held_bytes in EC. lia. }
  destruct c as [b|]; cbn [items_call call_rows] in *.
  2:{ destruct (offer_items _ _ _ _ _) as [[rows s'] out]. exact HH. }
  destruct (bs_held st) as [|x R0] eqn:EH; [apply F; exact HM|]. rewrite <- EH in *. clear EH x R0.
  unfold bin_room. destruct (N.ltb_spec B (N.of_nat (bytes_of (bs_held st)))) as [L|L]; [exact HH|].
  destruct (fill _ _) as [k|].
  - cbn zeta. destruct (take_bytes k b) as [T1 T2].
    destruct (offer_items wr nl (bs_rows st) _ s) as [[rows s'] out]. destruct (good out); [apply F; lia|]. cbn [fst bs_held]. rewrite bytes_app. lia.
  - cbn [fst bs_held]. rewrite bytes_app, trim_bytes. lia.
Qed.

(** C91 for binary columns, whatever panics or fails: with overflow checks no more
    data is held back than a block and the largest buffer have together. *)
Theorem C91_data_held_partial : forall (S : Type) (wr : sink_fn S) B M nullable calls cs s,
  (0 < B < 2 ^ 32)%N -> Forall2 (brings_rows nullable) calls cs -> Forall (fun c => bytes_of (call_rows c) <= M) cs ->
  (N.of_nat (length (calls_rows cs)) <= 2 ^ 32 - 2)%N -> (N.of_nat (bytes_of (calls_rows cs)) < 2 ^ 32 - 1)%N ->
  let e := fst (fst (enc_anyway wr Debug (be_new B nullable, s) calls)) in
  (N.of_nat (length (bb_data (be_remaining e))) <= B + N.of_nat M)%N.
Proof.
  intros S wr B M nl calls cs s HB HG HM HL HBy.
  pose proof (C106_exact S wr Debug B nl calls cs s HB HG HL HBy) as X. cbn zeta in *.
  assert (Y : forall st s, (N.of_nat (bytes_of (bs_held st)) <= B + N.of_nat M)%N -> (N.of_nat (bytes_of (bs_held (fst (fst (items_calls wr Debug nl B st s cs))))) <= B + N.of_nat M)%N).
  { clear -HM. induction HM as [|c cs H1 H2 IH]; intros st s HH; cbn [items_calls]; [exact HH|].
    pose proof (items_fit wr nl B st s c M HH H1) as C. destruct (items_call wr Debug nl B st s c) as [[st1 s1] out]. cbn [fst] in C.
    specialize (IH st1 s1 C). destruct (items_calls wr Debug nl B st1 s1 cs) as [[st2 s2] outs]. exact IH. }
  specialize (Y (mk_bs [] [] 0) s ltac:(cbn; lia)). destruct (items_calls wr Debug nl B (mk_bs [] [] 0) s cs) as [[st s'] outs]. cbn [fst] in Y.
  destruct X as (_ & _ & -> & _). unfold bytes_of in Y. exact Y.
Qed.
Print Assumptions C91_data_held_partial.

Lemma refused_held nl rows past R : R <> [] -> good (snd (offer_items refuse nl rows (held_item nl past R) tt)) = false.
Proof.
  intros HN. destruct R as [|x R]; [congruence|]. cbn [held_item offer_items it_rows it_count]. cbn zeta. destruct (128 <? _); [reflexivity|]. destruct (_ <=? _)%N; reflexivity.
Qed.

Lemma two_more B n : (0 < B)%N -> forall past R rows, R <> [] -> (N.of_nat (bytes_of R) + 1 = B \/ B < N.of_nat (bytes_of R))%N ->
  bs_held (fst (fst (items_calls refuse Release false B (mk_bs past R rows) tt (repeat (Some [Some [1; 2]%N]) n)))) = R ++ repeat (Some [1; 2]%N) n.
Proof.
  intros HB. induction n as [|n IH]; intros past R rows HN HR; cbn [repeat items_calls]; [symmetry; apply app_nil_r|].
  assert (RM : bin_room Release B R [Some [1; 2]%N] = Takes 1).
  { unfold bin_room. destruct (N.ltb_spec B (N.of_nat (bytes_of R))) as [L|L]; [reflexivity|]. destruct HR as [HR|HR]; [|lia].
    replace (B - N.of_nat (bytes_of R))%N with 1%N by lia. reflexivity. }
  assert (HN' : R ++ [Some [1; 2]%N] <> []) by (destruct R; discriminate).
  assert (ST : exists rows', fst (items_call refuse Release false B (mk_bs past R rows) tt (Some [Some [1; 2]%N])) = (mk_bs past (R ++ [Some [1; 2]%N]) rows', tt)).
  { destruct R as [|x R]; [congruence|]. cbn [items_call bs_held bs_past bs_rows]. rewrite RM. cbn zeta.
    change (take_vals 1 [Some [1; 2]%N]) with [Some [1; 2]%N]. pose proof (refused_held false rows past ((x :: R) ++ [Some [1; 2]%N]) HN') as G.
    destruct (offer_items refuse false rows _ tt) as [[rows' []] out]. cbn [snd] in G. rewrite G. exists rows'. reflexivity. }
  destruct ST as (rows' & ST). destruct (items_call refuse Release false B (mk_bs past R rows) tt (Some [Some [1; 2]%N])) as [[st1 s1] out]. cbn [fst] in ST. injection ST as -> ->.
  specialize (IH past (R ++ [Some [1; 2]%N]) rows' HN').
  destruct (items_calls refuse Release false B (mk_bs past (R ++ [Some [1; 2]%N]) rows') tt (repeat (Some [Some [1; 2]%N]) n)) as [[st2 s2] outs]. cbn [fst] in *.
  rewrite IH; [rewrite <- app_assoc; reflexivity|]. rewrite bytes_app. change (bytes_of [Some [1; 2]%N]) with 2. lia.
Qed.

(** Without overflow checks there is no bound for any block size: when one byte less
    than a block is held back and then all writes fail, all data is kept. *)
Theorem C91_binary_errors_refuted : forall B n first next, (0 < B < 2 ^ 32)%N -> (B + 2 * N.of_nat n < 2 ^ 32)%N ->
  bb_holds first false [Some (repeat 0%N (N.to_nat B - 1))] -> bb_holds next false [Some [1; 2]%N] ->
  let e := fst (fst (enc_anyway refuse Release (be_new B false, tt) (Encode first :: repeat (Encode next) n))) in
  length (bb_data (be_remaining e)) = N.to_nat B - 1 + 2 * n.
Proof.
  intros B n first next HB HN H1 H2. set (one := [Some (repeat 0%N (N.to_nat B - 1))] : list row) in *. set (two := [Some [1; 2]%N] : list row) in *.
  assert (HG : Forall2 (brings_rows false) (Encode first :: repeat (Encode next) n) (Some one :: repeat (Some two) n)).
  { constructor; [exact H1|]. clear -H2. induction n as [|n IH]; constructor; assumption. }
  assert (B1 : bytes_of one = N.to_nat B - 1) by (unfold one, bytes_of; cbn [somes concat]; rewrite app_nil_r; apply repeat_length).
  assert (CR : length (calls_rows (repeat (Some two) n)) = n /\ bytes_of (calls_rows (repeat (Some two) n)) = 2 * n).
  { clear. unfold calls_rows. induction n as [|n [IH1 IH2]]; [split; reflexivity|]. cbn [repeat map concat call_rows]. rewrite app_length, IH1, bytes_app, IH2. split; [reflexivity|].
    change (bytes_of two) with 2. lia. }
  change (2 ^ 32)%N with 4294967296%N in HB, HN.
  pose proof (C106_exact _ refuse Release B false _ _ tt HB HG) as X. change (calls_rows (Some one :: repeat (Some two) n)) with (one ++ calls_rows (repeat (Some two) n)) in X.
  rewrite app_length, bytes_app, B1 in X. destruct CR as [CR1 CR2]. rewrite CR1, CR2 in X. change (length one) with 1 in X. change (2 ^ 32)%N with 4294967296%N in X. specialize (X ltac:(lia) ltac:(lia)). cbn zeta in *.
  assert (FN : fill B (somes one) = None) by (apply fill_none_iff; unfold cbytes; change (length (concat (somes one))) with (bytes_of one); lia).
  assert (C1 : items_call refuse Release false B (mk_bs [] [] 0) tt (Some one) = (mk_bs [] one 0, tt, Ret (Ok tt))).
  { cbn [items_call bs_held bs_past bs_rows bin_cut]. rewrite FN. reflexivity. }
  cbn [items_calls] in X. rewrite C1 in X.
  pose proof (two_more B n ltac:(lia) [] one 0%N ltac:(discriminate) ltac:(rewrite B1; lia)) as Y. fold two in Y.
  destruct (items_calls refuse Release false B (mk_bs [] one 0) tt (repeat (Some two) n)) as [[st s'] outs]. cbn [fst] in Y. destruct X as (_ & _ & -> & _). rewrite Y.
  change (length (concat (somes (one ++ repeat (Some [1; 2]%N) n)))) with (bytes_of (one ++ repeat (Some [1; 2]%N) n)). rewrite bytes_app, B1. f_equal. clear.
  induction n as [|n IH]; [reflexivity|]. change (bytes_of (repeat (Some [1; 2]%N) (Datatypes.S n))) with (bytes_of ([Some [1; 2]%N] ++ repeat (Some [1; 2]%N) n)). rewrite bytes_app, IH. change (bytes_of [Some [1; 2]%N]) with 2. lia.
Qed.
Print Assumptions C91_binary_errors_refuted.

Example C91_errors_example :
  bb_holds (items_of false [Some [0; 0]%N]) false [Some (repeat 0%N (N.to_nat 3 - 1))] /\ bb_holds (items_of false [Some [1; 2]%N]) false [Some [1; 2]%N]
  /\ length (bb_data (be_remaining (fst (fst (enc_anyway refuse Release (be_new 3 false, tt) (Encode (items_of false [Some [0; 0]%N]) :: repeat (Encode (items_of false [Some [1; 2]%N])) 200)))))) = 402.
Proof. split; [|split; [|vm_compute; reflexivity]]; (split; [reflexivity|]; split; [reflexivity|]; split; [reflexivity|]; repeat constructor). Qed.

(** A hundred values of eight bytes and a sink that takes nothing: with a block size
    of 16 two are held back; with 9 two with overflow checks, all without.  Items of
    two bytes: four bytes with a block size of 3. *)
Example C91_held_example :
  let held p B := length (pb_values (pe_remaining (fst (fst (fix_anyway refuse p 8 (pe_new B false, tt) (repeat (FEncode (fixed_buf false [Some 7%N])) 100)))))) in
  held Release 16%N = 2 /\ held Debug 16%N = 2 /\ held Debug 9%N = 2 /\ held Release 9%N = 100
  /\ length (bb_data (be_remaining (fst (fst (enc_anyway refuse Debug (be_new 3 false, tt) (repeat (Encode (items_of false [Some [1; 2]%N])) 100)))))) = 4.
Proof. vm_compute. repeat split. Qed.
