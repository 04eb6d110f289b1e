(** C85: whether the data file of a segment can be taken apart into blocks
    without the block index, which no file has (C48). *)
From Verif Require Import Base BaseProofs Spec SpecRows SpecBin Varint VarintProofs Buffers Observe BitmapProofs BuffersProofs
  Rle RleProofs Offsets OffsetsProofs PropsOffsets Sink PrimEnc BinEnc ObserveEnc ReadBlock ReadBinBlock RowsProofs BlockProofs PrimEncProofs PrimRunProofs
  PropsPrim PropsPrimIds PropsRle BinBlockProofs BinEncProofs BinRunProofs PropsBin PropsBinRows PropsBinExact PropsBinPending
  Io SpecIo IoProofs IoReadProofs PropsIo Metadata SpecProto Names PropsNames Segment SpecSegment SegmentProofs SegmentRunProofs PropsSegment PropsSegmentEx PropsSegmentRef
  PropsReadBack PropsCrash PropsCut PropsDivision.
From Coq Require Import Permutation.
Open Scope nat_scope.

(** * It cannot, even if there is a single column *)

(** The two files of a segment with one raw column have the data of the column:
    no other data leaves the same files. *)
Definition C85_statement (nullable : bool) : Prop :=
  forall d p w base info w1 sg ci rowss rowss' bufs bufs' it w2 sg2 rs w2' sg2' rs',
  0 < wd_max w -> is_id (si_segment_id info) -> segment_new w base info = (w1, Ok sg) ->
  ci_encoding ci = Raw -> ci_nullable ci = nullable ->
  bb_fill nullable rowss = Ret bufs -> bb_fill nullable rowss' = Ret bufs' ->
  Forall (rows_allowed nullable) rowss -> Forall (rows_allowed nullable) rowss' ->
  orders_ok [SClose it] ->
  seg_run p w1 sg [SColumn ci (map CWrite bufs ++ [CClose]); SClose it] = Ret (w2, sg2, rs) -> all_ok rs ->
  seg_run p w1 sg [SColumn ci (map CWrite bufs' ++ [CClose]); SClose it] = Ret (w2', sg2', rs') -> all_ok rs' ->
  directory_after d (wd_log w2) (index_path base (si_segment_id info)) = directory_after d (wd_log w2') (index_path base (si_segment_id info)) ->
  directory_after d (wd_log w2) (data_path base (si_segment_id info)) = directory_after d (wd_log w2') (data_path base (si_segment_id info)) ->
  concat (somes (concat rowss)) = concat (somes (concat rowss')).

(** Items of the given lengths, one after the other. *)
Fixpoint items_of (lens : list nat) (bytes : list N) : list (option (list N)) :=
  match lens with [] => [] | l :: rest => Some (firstn l bytes) :: items_of rest (skipn l bytes) end.

(** 214 bytes in ten items; and the same 214 bytes in four items, followed in
    another buffer by an item of three bytes.  The lengths of the ten items have
    just the bytes that the second block of the other column has.  With validity
    it takes more items: 162 bytes in sixteen items; and the same bytes in four
    items, followed by nulls and nineteen items of three bytes in all. *)
Definition ap_one (nl : bool) : list (list (option (list N))) :=
  if nl then [items_of [1; 3; 1; 0; 0; 15; 0; 0; 0; 3; 1; 9; 0; 0; 1; 128] (repeat 7%N 162)]
  else [items_of [1; 3; 2; 0; 0; 5; 3; 0; 0; 200] (repeat 7%N 214)].
Definition ap_two (nl : bool) : list (list (option (list N))) :=
  if nl then [items_of [1; 2; 4; 155] (repeat 7%N 162); repeat None 7 ++ [Some [0]; Some [1]; None; Some [0]]%N ++ repeat None 5 ++ repeat (Some []) 16]
  else [items_of [1; 5; 8; 200] (repeat 7%N 214); [Some [5; 200; 0]%N]].
Definition ap_ci (nl : bool) : column_info := if nl then dv_ci else ex_a.
Definition ap_bufs (nl : bool) (rowss : list (list (option (list N)))) : list bin_buf := match bb_fill nl rowss with Ret b => b | _ => [] end.
Definition ap_ops (nl : bool) (rowss : list (list (option (list N)))) : list seg_op :=
  [SColumn (ap_ci nl) (map CWrite (ap_bufs nl rowss) ++ [CClose]); SClose ex_it].

(** With validity or without. *)
Theorem C85_one_column_refuted : forall nullable, ~ C85_statement nullable.
Proof.
  intros nl H.
  assert (R : forall rowss, rowss = ap_one nl \/ rowss = ap_two nl -> exists w1 sg w2 sg2 rs,
     segment_new ex_world ex_base ex_info = (w1, Ok sg) /\ seg_run Debug w1 sg (ap_ops nl rowss) = Ret (w2, sg2, rs) /\ all_ok rs
     /\ forall f, f = index_path ex_base (si_segment_id ex_info) \/ f = data_path ex_base (si_segment_id ex_info) ->
          directory_after (fun _ => None) (wd_log w2) f = file_after f (run_from Debug ex_world ex_base ex_info (ap_ops nl (ap_one nl)))).
  { intros rowss C. destruct (segment_blocks Debug (ap_ops nl rowss)) as [bl|k|] eqn:B; [|destruct C as [-> | ->]; destruct nl; vm_compute in B; discriminate B..].
    destruct (ex_run (ap_ops nl rowss) bl) as (w1 & sg & w2 & sg2 & rs & N & R & A); [destruct nl; repeat constructor|exact B|].
    exists w1, sg, w2, sg2, rs. split; [exact N|]. split; [exact R|]. split; [exact A|]. intros f F.
    assert (FA : directory_after (fun _ => None) (wd_log w2) f = file_after f (run_from Debug ex_world ex_base ex_info (ap_ops nl rowss)))
      by (unfold run_from; rewrite N, R; reflexivity).
    rewrite FA. clear -C F. destruct C as [-> | ->]; [reflexivity|]. destruct F as [-> | ->]; destruct nl; vm_compute; reflexivity. }
  destruct (R _ (or_introl eq_refl)) as (w1 & sg & w2 & sg2 & rs & N & R1 & A & F1).
  destruct (R _ (or_intror eq_refl)) as (w1' & sg' & w2' & sg2' & rs' & N' & R2 & A' & F2).
  rewrite N in N'. injection N' as <- <-.
  assert (E : concat (somes (concat (ap_one nl))) = concat (somes (concat (ap_two nl)))).
  { apply (H (fun _ => None) Debug ex_world ex_base ex_info w1 sg (ap_ci nl) (ap_one nl) (ap_two nl)
             (ap_bufs nl (ap_one nl)) (ap_bufs nl (ap_two nl)) ex_it w2 sg2 rs w2' sg2' rs').
    - cbn; lia.
    - split; [reflexivity|repeat constructor].
    - exact N.
    - destruct nl; reflexivity.
    - destruct nl; reflexivity.
    - destruct nl; vm_compute; reflexivity.
    - destruct nl; vm_compute; reflexivity.
    - destruct nl; [repeat constructor|]. constructor; [right; repeat constructor|constructor].
    - destruct nl; [repeat constructor|]. constructor; [right; repeat constructor|]. constructor; [right; repeat constructor|constructor].
    - apply (ex_orders []). constructor.
    - exact R1.
    - exact A.
    - exact R2.
    - exact A'.
    - rewrite F1, F2 by (left; reflexivity). reflexivity.
    - rewrite F1, F2 by (right; reflexivity). reflexivity. }
  clear -E. apply (f_equal (@length N)) in E. destruct nl; vm_compute in E; discriminate E.
Qed.
Print Assumptions C85_one_column_refuted.

(** * It can if the number of items in each block is known *)

(** The least length, from [k] on, of a beginning with the given property. *)
Fixpoint shortest (good : list N -> bool) (bytes : list N) (k tries : nat) : option nat :=
  match tries with
  | O => None
  | S tries' => if good (firstn k bytes) then Some k else shortest good bytes (S k) tries'
  end.

(** These bytes are the validity of [n] values. *)
Definition marks (p : profile) (n : nat) (validity : list N) : bool :=
  match rle_decode p validity (repeat 0%N n) with Ret (_, m) => m =? n | _ => false end.

(** Where a block of [n] items ends, following the format at binary_enc.rs:14-22:
    data length, data, width and packed lengths, validity. *)
Definition block_end (p : profile) (nl : bool) (n : nat) (bytes : list N) : option nat :=
  match decode_varint p bytes with
  | Ret (Ok (size, k)) =>
      match skipn (k + N.to_nat size) bytes with
      | [] => None
      | width :: rest =>
          let packed := (N.to_nat width * n + 7) / 8 in
          let fixed := k + N.to_nat size + 1 + packed in
          if nl then option_map (Nat.add fixed) (shortest (marks p n) (skipn packed rest) 0 (S (length rest))) else Some fixed
      end
  | _ => None
  end.

(** Blocks one after the other: for each, whether it has validity and how many
    items it has. *)
Fixpoint take_apart (p : profile) (shapes : list (bool * nat)) (bytes : list N) : list (list N) :=
  match shapes with
  | [] => []
  | (nl, n) :: rest =>
      match block_end p nl n bytes with
      | Some k => firstn k bytes :: take_apart p rest (skipn k bytes)
      | None => []
      end
  end.

Lemma shortest_ok good block rest : good block = true -> (forall k, k < length block -> good (firstn k block) = false) ->
  forall n k tries, length block = k + n -> n < tries -> shortest good (block ++ rest) k tries = Some (length block).
Proof.
  intros HG HN. induction n as [|n IH]; intros k tries HL HT; (destruct tries as [|tries]; [lia|]); cbn [shortest].
  - rewrite Nat.add_0_r in HL. rewrite <- HL, firstn_app_exact, HG. reflexivity.
  - rewrite firstn_app. replace (k - length block) with 0 by lia. cbn [firstn]. rewrite app_nil_r, HN by lia. apply IH; lia.
Qed.

Lemma marks_ok p (w : list (option (list N))) enc : ends_some w -> w <> [] -> (N.of_nat (length w) <= 2 ^ 32 - 8)%N ->
  rle_encode rle_new (validity_of w) = Ret enc ->
  marks p (length (somes w)) enc = true /\ forall k, k < length enc -> marks p (length (somes w)) (firstn k enc) = false.
Proof.
  intros HE HN HL HR. unfold marks. fold (num_vals w). split.
  - rewrite (decode_encoding p (validity_of w)) by (rewrite ?validity_length; assumption).
    rewrite repeat_length, count_validity. fold (num_vals w). rewrite Nat.leb_refl. apply Nat.eqb_refl.
  - intros k Hk. destruct (C83_bitmap_count p (validity_of w) enc (repeat 0%N (num_vals w)) k) as [[kd Hd]|(dst' & m & Hd & Hm)];
      [rewrite validity_length; exact HL|apply last_validity; assumption|exact HR|exact Hk|rewrite Hd; reflexivity|].
    rewrite Hd. rewrite count_validity in Hm. fold (num_vals w) in Hm. apply Nat.eqb_neq. lia.
Qed.

(** Any block laid out as documented, and anything behind it. *)
Lemma block_end_ok p nl w extra block rest : layout p nl w extra block -> ends_some w -> w <> [] ->
  (N.of_nat (length w) <= 2 ^ 32 - 8)%N -> (N.of_nat (length (concat (somes w)) + length extra) < 2 ^ 32)%N ->
  block_end p nl (length (somes w)) (block ++ rest) = Some (length block).
Proof.
  intros (size & pl & lens & validity & HS & HO & HV & ->) HE HN HL HB.
  change (2 ^ 32)%N with 4294967296%N in HB. rewrite put_varint_ok in HS by (unfold u64_lim; lia). injection HS as <-. cbn [app].
  assert (NL : (N.of_nat (length (map (fun v : list N => N.of_nat (length v)) (somes w))) < 2 ^ 63)%N).
  { rewrite map_length. pose proof (somes_length_le w). change (2 ^ 32 - 8)%N with 4294967288%N in HL. change (2 ^ 63)%N with 9223372036854775808%N. lia. }
  destruct (C26_offsets_size p _ _ _ _ NL HO)
    as (b & bytes & EL & _ & B1 & B2 & _ & _). cbn [app] in EL. subst lens. rewrite map_length in B1, B2.
  set (n := length (somes w)) in *. set (D := concat (somes w)) in *.
  assert (EP : (b * n + 7) / 8 = length bytes) by (symmetry; apply (Nat.div_unique _ 8 _ (b * n + 7 - 8 * length bytes)); lia).
  unfold block_end. rewrite <- !app_assoc. rewrite decode_varint_bytes by (unfold u64_lim; lia). rewrite Nat2N.id.
  set (V := varint_bytes _).
  assert (SK : skipn (length V + (length D + length extra)) (V ++ D ++ extra ++ (N.of_nat b :: bytes) ++ validity ++ rest)
               = N.of_nat b :: bytes ++ validity ++ rest).
  { replace (V ++ D ++ extra ++ (N.of_nat b :: bytes) ++ validity ++ rest) with ((V ++ D ++ extra) ++ N.of_nat b :: bytes ++ validity ++ rest)
      by (rewrite <- !app_assoc; reflexivity).
    replace (length V + (length D + length extra)) with (length (V ++ D ++ extra)) by (rewrite !app_length; lia). apply skipn_app_exact. }
  rewrite SK, Nat2N.id, EP, skipn_app_exact. destruct nl.
  - destruct (marks_ok p w validity HE HN HL HV) as [M1 M2]. fold n in M1, M2.
    rewrite (shortest_ok _ validity rest M1 M2 (length validity)) by (rewrite ?app_length; lia).
    cbn [option_map]. f_equal. rewrite !app_length. cbn [length]. lia.
  - subst validity. f_equal. rewrite !app_length. cbn [length]. lia.
Qed.

(** ** Planned blocks end with an item *)

Definition all_end (items : list bin_item) : Prop := Forall (fun it => ends_some (it_rows it)) items.

Lemma bin_cut_ends p nl B : forall f s pos rows, all_end (fst (bin_cut p nl f B s pos rows)).
Proof.
  induction f as [|f IH]; intros s pos rows; cbn [bin_cut]; [constructor|].
  destruct (SpecBin.fill B (somes rows)) as [q|] eqn:EF; [|constructor]. destruct (Nat.leb_spec q s) as [L|L]; [constructor|].
  destruct (fill_some _ _ _ EF) as (K1 & _ & _). cbn [fst]. constructor; cbn [it_rows]; [|apply IH].
  apply take_ends. unfold num_vals. lia.
Qed.

Lemma bin_step_ends p nl B past R b : ends_some R -> all_end (fst (snd (bin_step p nl B past R b))).
Proof.
  intros HE. unfold bin_step. destruct R as [|x R0]; [cbn [snd]; apply bin_cut_ends|].
  set (R := x :: R0) in *. clearbody R.
  destruct (SpecBin.fill (B - N.of_nat (bytes_of R)) (somes b)) as [k|] eqn:EF; [|constructor]. cbv zeta. cbn [fst snd].
  destruct (fill_some _ _ _ EF) as (K1 & _ & _).
  assert (WE : ends_some (R ++ take_vals k b)).
  { destruct (take_vals k b) eqn:ET; [rewrite app_nil_r; exact HE|]. rewrite <- ET. apply RowsProofs.ends_app; [apply take_ends; exact K1|congruence]. }
  destruct (seen_spec nl past _ WE) as (_ & S2 & _). constructor; [exact S2|apply bin_cut_ends].
Qed.

Lemma bin_run_ends p nl B : (0 < B)%N -> forall rowss past R, ends_some R -> (N.of_nat (bytes_of R) < B)%N ->
  all_end (fst (snd (bin_run p nl B past R rowss))).
Proof.
  intros HB. induction rowss as [|b rowss IH]; intros past R HE HR; cbn [bin_run]; [constructor|].
  pose proof (bin_step_ends p nl B past R b HE) as SB.
  destruct (bin_step p nl B past R b) as [past1 [its [R1|k]]] eqn:ES; cbn [fst snd] in *; [|exact SB].
  apply bin_step_held in ES; [|exact HE|exact HR]. destruct ES as (A1 & A2 & A3 & _). apply Forall_app. split; [exact SB|]. apply IH; assumption.
Qed.

Lemma planned_ends p nl B rowss : (0 < B)%N -> all_end (fst (planned_blocks p nl B rowss)).
Proof.
  intros HB. unfold planned_blocks. pose proof (bin_run_ends p nl B HB rowss [] [] ltac:(left; reflexivity) ltac:(cbn; lia)) as E.
  destruct (bin_run p nl B [] [] rowss) as [past [items [R|k]]] eqn:ER; cbn [fst snd] in *; [|exact E].
  apply bin_run_held in ER; [|left; reflexivity|cbn; lia]. destruct ER as (_ & A2 & _).
  destruct R as [|x R]; [exact E|]. apply Forall_app. split; [exact E|]. constructor; [|constructor]. cbn [it_rows]. apply (seen_spec nl past _ A2).
Qed.

(** ** Columns and files *)

(** What a column was given, in buffers, and its blocks as planned: with or
    without validity, and the number of items in each. *)
Definition shapes (p : profile) (c : column_info * list (list (option (list N)))) : list (bool * nat) :=
  map (fun it => (ci_nullable (fst c), length (somes (it_rows it)))) (fst (planned_blocks p (ci_nullable (fst c)) 128 (snd c))).

(** A raw column within the limits. *)
Definition raw_column (c : column_info * list (list (option (list N)))) (bufs : list bin_buf) : Prop :=
  let nl := ci_nullable (fst c) in
  ci_encoding (fst c) = Raw /\ bb_fill nl (snd c) = Ret bufs /\ Forall (rows_allowed nl) (snd c)
  /\ Forall (fun r => 128 + N.of_nat (length (concat (somes r))) < 2 ^ 32)%N (snd c)
  /\ (N.of_nat (length (concat (snd c))) <= 2 ^ 32 - 8)%N.

Lemma apart_column p c bufs bl rest more : raw_column c bufs ->
  be_column_rows p 128 (ci_nullable (fst c)) (snd c) = Ret (bl, Ok tt) ->
  take_apart p (shapes p c ++ more) (concat (map snd bl) ++ rest) = map snd bl ++ take_apart p more rest.
Proof.
  intros (RAW & FILL & HA & HF & HL) CB. unfold shapes. set (nl := ci_nullable (fst c)) in *.
  assert (HL2 : (N.of_nat (length (concat (snd c))) <= 2 ^ 32 - 2)%N).
  { change (2 ^ 32 - 2)%N with 4294967294%N. change (2 ^ 32 - 8)%N with 4294967288%N in HL. lia. }
  assert (HF2 : Forall (fun r => 128 + N.of_nat (bytes_of r) <= u32_max)%N (snd c)).
  { eapply Forall_impl; [|exact HF]. change (2 ^ 32)%N with 4294967296%N. unfold u32_max, bytes_of. cbn. intros; lia. }
  pose proof (planned_bounded p 128 nl (snd c) ltac:(lia) HF2) as BD. rewrite <- planned_is in BD.
  pose proof (planned_ends p nl 128 (snd c) ltac:(lia)) as EN.
  assert (RET : exists r, be_column_rows p 128 nl (snd c) = Ret r) by (eexists; exact CB).
  apply (C35_returns_exact p 128 nl (snd c) ltac:(reflexivity) HA HF HL2) in RET. destruct RET as [W ST].
  pose proof (C34_column_exact p 128 nl (snd c) ltac:(reflexivity) HA HF HL2) as X.
  destruct (planned_blocks p nl 128 (snd c)) as [items stop]. cbn [fst snd] in *. subst stop.
  destruct X as (X & _). destruct (X W eq_refl) as (bl' & E & _ & LY). rewrite CB in E. injection E as <-.
  assert (LR : sum_len (snd c) = length (concat (snd c))) by reflexivity. rewrite LR in BD.
  clear -LY BD EN HL. induction LY as [|it b items bl L1 _ IH]; [reflexivity|].
  apply Forall_cons_iff in BD. destruct BD as [(B1 & B2 & B3) BD]. apply Forall_cons_iff in EN. destruct EN as [E1 EN].
  cbn [map app concat take_apart]. rewrite <- app_assoc.
  rewrite (block_end_ok p nl (it_rows it) (it_extra it) (snd b)).
  - rewrite firstn_app_exact, skipn_app_exact, IH by assumption. reflexivity.
  - exact L1.
  - exact E1.
  - intros E0. rewrite E0 in B1. cbn in B1. lia.
  - change (2 ^ 32 - 8)%N with 4294967288%N in *. lia.
  - change (2 ^ 32)%N with 4294967296%N. unfold bytes_of in B3. lia.
Qed.

Definition columns_ops (cols : list (column_info * list (list (option (list N))))) (bufss : list (list bin_buf)) : list seg_op :=
  map (fun cb => SColumn (fst (fst cb)) (map CWrite (snd cb) ++ [CClose])) (combine cols bufss).

Lemma apart_blocks p cols bufss : Forall2 raw_column cols bufss -> forall blocks, segment_blocks p (columns_ops cols bufss) = Ret blocks ->
  exists blockss, Forall2 (fun c bl => be_column_rows p 128 (ci_nullable (fst c)) (snd c) = Ret (bl, Ok tt)) cols blockss
    /\ blocks = concat blockss
    /\ take_apart p (flat_map (shapes p) cols) (concat (map snd blocks)) = map snd blocks.
Proof.
  unfold columns_ops. induction 1 as [|c bufs cols bufss RC _ IH]; intros blocks H; cbn [combine map segment_blocks fst snd] in H.
  - injection H as <-. exists []. split; [constructor|]. split; reflexivity.
  - destruct (column_blocks p (fst c) (map CWrite bufs ++ [CClose])) as [bl|k|] eqn:CB; [|discriminate H..]. cbn [bind] in H.
    destruct (segment_blocks p _) as [bls|k|] eqn:SB; [|discriminate H..]. cbn [bind] in H. injection H as <-.
    destruct (IH bls eq_refl) as (blockss & F & E & T).
    pose proof RC as (RAW & FILL & _). rewrite (raw_blocks p (fst c) (snd c) bufs bl RAW FILL) in CB.
    exists (bl :: blockss). split; [constructor; assumption|]. split; [cbn [concat]; rewrite E; reflexivity|].
    cbn [flat_map]. rewrite map_app, concat_app, (apart_column p c bufs bl _ _ RC CB), T. reflexivity.
Qed.

(** Given the number of items in each block, the data file of any segment with
    raw columns is taken apart again into the blocks of its columns: nothing but
    the counts would have to be stored. *)
Theorem C85_counts_partial : forall d p w base info w1 sg cols bufss it w2 sg2 rs file,
  0 < wd_max w -> is_id (si_segment_id info) -> segment_new w base info = (w1, Ok sg) ->
  Forall2 raw_column cols bufss -> orders_ok [SClose it] ->
  seg_run p w1 sg (columns_ops cols bufss ++ [SClose it]) = Ret (w2, sg2, rs) -> all_ok rs ->
  directory_after d (wd_log w2) (data_path base (si_segment_id info)) = Some file ->
  exists blockss,
    Forall2 (fun c bl => be_column_rows p 128 (ci_nullable (fst c)) (snd c) = Ret (bl, Ok tt)) cols blockss
    /\ take_apart p (flat_map (shapes p) cols) (skipn 13 file) = map snd (concat blockss).
Proof.
  intros d p w base info w1 sg cols bufss it w2 sg2 rs file M ID N RC O H A DF.
  assert (O' : orders_ok (columns_ops cols bufss ++ [SClose it])).
  { apply Forall_app. split; [|exact O]. unfold columns_ops. apply Forall_map. apply Forall_forall. intros x _. exact I. }
  destruct (C45_data_file d _ _ _ _ _ _ _ _ _ _ _ M ID N O' H A) as (bl & B & DD). rewrite DF in DD. injection DD as ->.
  destruct (apart_blocks p cols bufss RC bl B) as (blockss & F & -> & T). exists blockss. split; [exact F|]. exact T.
Qed.
Print Assumptions C85_counts_partial.

(** And so is what a crash leaves of it, once it was synced. *)
Theorem C85_after_crash_partial : forall d p w base info w1 sg cols bufss it w2 sg2 rs w3 more d',
  0 < wd_max w -> is_id (si_segment_id info) -> segment_new w base info = (w1, Ok sg) ->
  Forall2 raw_column cols bufss -> orders_ok [SClose it] ->
  seg_run p w1 sg (columns_ops cols bufss ++ [SClose it]) = Ret (w2, sg2, rs) -> all_ok rs ->
  segment_sync w2 sg2 = (w3, Ok tt) ->
  Forall (fun e => event_path e <> data_path base (si_segment_id info) /\ event_path e <> index_path base (si_segment_id info)) more ->
  after_crash true d (wd_log w3 ++ more) d' ->
  exists file blockss,
    d' (data_path base (si_segment_id info)) = Some file
    /\ Forall2 (fun c bl => be_column_rows p 128 (ci_nullable (fst c)) (snd c) = Ret (bl, Ok tt)) cols blockss
    /\ take_apart p (flat_map (shapes p) cols) (skipn 13 file) = map snd (concat blockss).
Proof.
  intros d p w base info w1 sg cols bufss it w2 sg2 rs w3 more d' M ID N RC O H A SY FM AC.
  assert (O' : orders_ok (columns_ops cols bufss ++ [SClose it])).
  { apply Forall_app. split; [|exact O]. unfold columns_ops. apply Forall_map. apply Forall_forall. intros x _. exact I. }
  destruct (C54_closed_and_synced_partial d p w base info w1 sg _ it w2 sg2 rs w3 more d' M ID N O' H A SY FM AC) as (_ & _ & (bl & B & DD) & _).
  destruct (apart_blocks p cols bufss RC bl B) as (blockss & F & -> & T). eexists. exists blockss. split; [exact DD|]. split; [exact F|]. exact T.
Qed.
Print Assumptions C85_after_crash_partial.

(** ** Without nulls the row identifiers tell the counts *)

Definition all_allowed (nl : bool) (items : list bin_item) : Prop := Forall (fun it => rows_allowed nl (it_rows it)) items.

Lemma bin_cut_allowed p nl B : forall f s pos rows, rows_allowed nl rows -> all_allowed nl (fst (bin_cut p nl f B s pos rows)).
Proof.
  induction f as [|f IH]; intros s pos rows HA; cbn [bin_cut]; [constructor|].
  destruct (SpecBin.fill B (somes rows)) as [q|]; [|constructor]. destruct (q <=? s); [constructor|].
  cbn [fst]. constructor; cbn [it_rows]; [apply allowed_take; exact HA|apply IH, allowed_drop, HA].
Qed.

Lemma bin_step_allowed p nl B past R b : ends_some R -> rows_allowed nl R -> rows_allowed nl b ->
  all_allowed nl (fst (snd (bin_step p nl B past R b))).
Proof.
  intros HE HR HA. unfold bin_step. destruct R as [|x R0]; [cbn [snd]; apply bin_cut_allowed; exact HA|].
  set (R := x :: R0) in *. clearbody R.
  destruct (SpecBin.fill (B - N.of_nat (bytes_of R)) (somes b)) as [k|] eqn:EF; [|constructor]. cbv zeta. cbn [fst snd].
  destruct (fill_some _ _ _ EF) as (K1 & _ & _).
  assert (WE : ends_some (R ++ take_vals k b)).
  { destruct (take_vals k b) eqn:ET; [rewrite app_nil_r; exact HE|]. rewrite <- ET. apply RowsProofs.ends_app; [apply take_ends; exact K1|congruence]. }
  constructor; [|apply bin_cut_allowed, allowed_drop, HA]. cbn [it_rows]. apply seen_allowed; [exact WE|].
  apply allowed_app. split; [exact HR|apply allowed_take, HA].
Qed.

Lemma bin_run_allowed p nl B : (0 < B)%N -> forall rowss past R, ends_some R -> (N.of_nat (bytes_of R) < B)%N -> rows_allowed nl R ->
  Forall (rows_allowed nl) rowss ->
  all_allowed nl (fst (snd (bin_run p nl B past R rowss)))
  /\ forall past' items R', bin_run p nl B past R rowss = (past', (items, Held R')) -> rows_allowed nl R'.
Proof.
  intros HB. induction rowss as [|b rowss IH]; intros past R HE HR HA HF; cbn [bin_run].
  - split; [constructor|]. intros past' items R' H. injection H as _ _ <-. exact HA.
  - apply Forall_cons_iff in HF. destruct HF as [HF1 HF2].
    pose proof (bin_step_allowed p nl B past R b HE HA HF1) as SB.
    destruct (bin_step p nl B past R b) as [past1 [its [R1|k]]] eqn:ES; cbn [fst snd] in *.
    + apply bin_step_held in ES; [|exact HE|exact HR]. destruct ES as (A1 & A2 & A3 & A4).
      destruct (IH past1 R1 A2 A1 (A4 HA HF1) HF2) as [I1 I2]. split; [apply Forall_app; split; assumption|].
      intros past' items R' H. destruct (bin_run p nl B past1 R1 rowss) as [past2 [its2 e2]]. cbn [fst snd] in H. injection H as <- <- ->. eapply I2. reflexivity.
    + split; [exact SB|]. intros past' items R' H. discriminate H.
Qed.

Lemma planned_allowed p nl B rowss : (0 < B)%N -> Forall (rows_allowed nl) rowss -> all_allowed nl (fst (planned_blocks p nl B rowss)).
Proof.
  intros HB HF. unfold planned_blocks. assert (HN : rows_allowed nl (@nil row)) by (right; constructor).
  destruct (bin_run_allowed p nl B HB rowss [] [] ltac:(left; reflexivity) ltac:(cbn; lia) HN HF) as [E F].
  destruct (bin_run p nl B [] [] rowss) as [past [items [R|k]]] eqn:ER; cbn [fst snd] in *; [|exact E].
  specialize (F _ _ _ eq_refl). apply bin_run_held in ER; [|left; reflexivity|cbn; lia]. destruct ER as (_ & A2 & _).
  destruct R as [|x R]; [exact E|]. apply Forall_app. split; [exact E|]. constructor; [|constructor]. cbn [it_rows]. apply seen_allowed; assumption.
Qed.

(** How many rows each block has, from the identifiers of last rows. *)
Fixpoint rows_between (from : N) (ids : list N) : list nat :=
  match ids with [] => [] | i :: rest => N.to_nat (i + 1 - from) :: rows_between (i + 1) rest end.

Lemma between_counted items : Forall (fun it => 0 < it_count it) items -> forall from, rows_between from (counted from items) = map it_count items.
Proof.
  induction 1 as [|it items P _ IH]; intros from; [reflexivity|]. cbn [counted rows_between map].
  replace (from + N.of_nat (it_count it) - 1 + 1)%N with (from + N.of_nat (it_count it))%N by lia. rewrite IH. f_equal. lia.
Qed.

Lemma planned_counts p nl B rowss : Forall (count_ok nl) (fst (planned_blocks p nl B rowss)).
Proof.
  unfold planned_blocks. pose proof (bin_run_counts p nl B rowss [] []) as C. destruct (bin_run p nl B [] [] rowss) as [past [its [R|k]]]; cbn [fst snd] in *; [|exact C].
  destruct R as [|x R]; [exact C|]. apply Forall_app. split; [exact C|]. constructor; [|constructor]. split; cbn [it_count it_rows]; auto.
Qed.

Lemma shapes_between p c bufs bl : raw_column c bufs -> ci_nullable (fst c) = false ->
  be_column_rows p 128 (ci_nullable (fst c)) (snd c) = Ret (bl, Ok tt) -> shapes p c = map (pair false) (rows_between 0 (map fst bl)).
Proof.
  intros (RAW & FILL & HA & HF & HL) NN CB. unfold shapes. rewrite NN in *.
  assert (HL2 : (N.of_nat (length (concat (snd c))) <= 2 ^ 32 - 2)%N).
  { change (2 ^ 32 - 2)%N with 4294967294%N. change (2 ^ 32 - 8)%N with 4294967288%N in HL. lia. }
  assert (HF2 : Forall (fun r => 128 + N.of_nat (bytes_of r) <= u32_max)%N (snd c)).
  { eapply Forall_impl; [|exact HF]. change (2 ^ 32)%N with 4294967296%N. unfold u32_max, bytes_of. cbn. intros; lia. }
  pose proof (planned_bounded p 128 false (snd c) ltac:(lia) HF2) as BD. rewrite <- planned_is in BD.
  pose proof (planned_allowed p false 128 (snd c) ltac:(lia) HA) as AL.
  pose proof (planned_counts p false 128 (snd c)) as CO.
  assert (RET : exists r, be_column_rows p 128 false (snd c) = Ret r) by (eexists; exact CB).
  apply (C35_returns_exact p 128 false (snd c) ltac:(reflexivity) HA HF HL2) in RET. destruct RET as [W ST].
  pose proof (C34_column_exact p 128 false (snd c) ltac:(reflexivity) HA HF HL2) as X.
  destruct (planned_blocks p false 128 (snd c)) as [items stop]. cbn [fst snd] in *. subst stop.
  destruct X as (X & _). destruct (X W eq_refl) as (bl' & E & IDS & _). rewrite CB in E. injection E as <-. rewrite IDS.
  assert (CN : Forall (fun it => 0 < it_count it /\ it_count it = length (somes (it_rows it))) items).
  { clear -BD AL CO. unfold bounded, all_allowed in *. rewrite Forall_forall in *. intros it I. specialize (BD it I). specialize (AL it I). specialize (CO it I). cbv beta in *.
    destruct BD as (B1 & _). destruct CO as [_ CO]. specialize (CO eq_refl). apply allowed_false_num in AL. unfold num_vals in *. lia. }
  rewrite between_counted by (eapply Forall_impl; [|exact CN]; intros it [P _]; exact P). rewrite map_map.
  apply map_ext_in. intros it I. rewrite Forall_forall in CN. destruct (CN it I) as [_ ->]. reflexivity.
Qed.

(** So for raw columns without nulls the data file and the row identifiers of
    the block indexes would do, if these were stored ([C45_block_index] has them
    in memory); their offsets are not needed. *)
Theorem C85_row_ids_partial : forall d p w base info w1 sg cols bufss it w2 sg2 rs file,
  0 < wd_max w -> is_id (si_segment_id info) -> segment_new w base info = (w1, Ok sg) ->
  Forall2 raw_column cols bufss -> Forall (fun c => ci_nullable (fst c) = false) cols -> orders_ok [SClose it] ->
  seg_run p w1 sg (columns_ops cols bufss ++ [SClose it]) = Ret (w2, sg2, rs) -> all_ok rs ->
  directory_after d (wd_log w2) (data_path base (si_segment_id info)) = Some file ->
  exists blockss,
    Forall2 (fun c bl => be_column_rows p 128 (ci_nullable (fst c)) (snd c) = Ret (bl, Ok tt)) cols blockss
    /\ take_apart p (flat_map (fun bl => map (pair false) (rows_between 0 (map fst bl))) blockss) (skipn 13 file) = map snd (concat blockss).
Proof.
  intros d p w base info w1 sg cols bufss it w2 sg2 rs file M ID N RC NN O H A DF.
  destruct (C85_counts_partial d p w base info w1 sg cols bufss it w2 sg2 rs file M ID N RC O H A DF) as (blockss & F & T).
  exists blockss. split; [exact F|]. rewrite <- T. f_equal. clear -RC NN F. revert blockss F.
  induction RC as [|c bufs cols bufss R1 _ IH]; intros blockss F; inversion F as [|? bl ? rest CB F2]; subst; [reflexivity|].
  apply Forall_cons_iff in NN. destruct NN as [N1 NN]. cbn [flat_map]. rewrite (shapes_between p c bufs bl R1 N1 CB), (IH NN rest F2). reflexivity.
Qed.
Print Assumptions C85_row_ids_partial.

(** Identifiers 2, 3, 9: three rows, one, six. *)
Example C85_between : rows_between 0 [2; 3; 9]%N = [3; 1; 6].
Proof. reflexivity. Qed.

(** Two columns, one with nulls: their five blocks, found again; and the two
    columns of [C85_one_column_refuted], for which the counts make the
    difference. *)
Definition ap_cols : list (column_info * list (list (option (list N)))) :=
  [(ex_a, ap_two false); (dv_ci, [[Some (repeat 9%N 130); None; Some [1]%N]; [Some [2; 3]%N; None]; [None; Some (repeat 4%N 140); Some [5]%N]])].
Definition ap_bufss : list (list bin_buf) := map (fun c => match bb_fill (ci_nullable (fst c)) (snd c) with Ret b => b | _ => [] end) ap_cols.

Example C85_witness :
  flat_map (shapes Debug) ap_cols = [(false, 4); (false, 1); (true, 1); (true, 3); (true, 1)]
  /\ match run_from Debug ex_world ex_base ex_info (columns_ops ap_cols ap_bufss ++ [SClose ex_it]) with
     | Some (w, _, rs) => all_ok rs
         /\ match directory_after (fun _ => None) (wd_log w) (data_path ex_base (si_segment_id ex_info)) with
            | Some file =>
                map (@length N) (take_apart Debug (flat_map (shapes Debug) ap_cols) (skipn 13 file)) = [221; 6; 136; 151; 6]
                /\ concat (take_apart Debug (flat_map (shapes Debug) ap_cols) (skipn 13 file)) = skipn 13 file
            | None => False end
     | None => False end
  /\ shapes Debug (ex_a, ap_one false) = [(false, 10)] /\ shapes Debug (ex_a, ap_two false) = [(false, 4); (false, 1)]
  /\ shapes Debug (dv_ci, ap_one true) = [(true, 16)] /\ shapes Debug (dv_ci, ap_two true) = [(true, 4); (true, 19)]
  /\ length (concat (somes (concat (ap_one false)))) = 214 /\ length (concat (somes (concat (ap_two false)))) = 217.
Proof.
  split; [vm_compute; reflexivity|]. split; [|vm_compute; repeat split].
  vm_compute. split; [repeat constructor|]. split; reflexivity.
Qed.

Example C85_hypotheses : Forall2 raw_column ap_cols ap_bufss.
Proof.
  assert (Q : forall rows : list (option (list N)), Forall (fun r => is_some r = true) rows -> rows_allowed false rows) by (intros rows H; right; exact H).
  constructor; [|constructor; [|constructor]]; (split; [reflexivity|]); (split; [vm_compute; reflexivity|]); cbn [fst snd ex_a dv_ci ci_nullable].
  - split; [|split].
    + constructor; [apply Q; repeat constructor|]. constructor; [apply Q; repeat constructor|constructor].
    + repeat constructor; vm_compute; reflexivity.
    + vm_compute. discriminate.
  - split; [|split].
    + repeat constructor.
    + repeat constructor; vm_compute; reflexivity.
    + vm_compute. discriminate.
Qed.

(** The first of them alone: identifiers 3 and 4. *)
Example C85_row_ids_witness :
  Forall (fun c : column_info * list (list (option (list N))) => ci_nullable (fst c) = false) [hd (ex_a, []) ap_cols]
  /\ match be_column_rows Debug 128 false (ap_two false) with
     | Ret (bl, Ok tt) => map fst bl = [3; 4]%N /\ rows_between 0 (map fst bl) = [4; 1]
         /\ map (@length N) (take_apart Debug (map (pair false) (rows_between 0 (map fst bl))) (concat (map snd bl))) = [221; 6]
     | _ => False end.
Proof. split; [constructor; [reflexivity|constructor]|]. vm_compute. repeat split. Qed.
