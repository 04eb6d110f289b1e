(** C87, C88: writing the same columns again, or in another order. *)
From Verif Require Import Base Buffers Sink PrimEnc BinEnc Io SpecIo IoProofs PropsIo Metadata Proto SpecProto ProtoProofs ReadBlock
  BlockProofs Names PropsNames Segment SpecSegment SegmentProofs SegmentRunProofs PropsSegment PropsSegmentEx
  PropsSegmentRef PropsCrash PropsBuilds.
From Coq Require Import Permutation.
Open Scope nat_scope.

(** * C87: writing a segment again *)

(** A program of build [p], on some machine and in some directory, made the
    calls [ops] and at last closed the segment; all succeeded and left the files
    [data] and [index]. *)
Definition wrote (p : profile) (info : segment_info) (ops : list seg_op) (it : iteration) (data index : list N) : Prop :=
  exists d w base w1 sg w2 sg2 rs,
    0 < wd_max w /\ is_id (si_segment_id info) /\ segment_new w base info = (w1, Ok sg)
    /\ orders_ok (ops ++ [SClose it]) /\ seg_run p w1 sg (ops ++ [SClose it]) = Ret (w2, sg2, rs) /\ all_ok rs
    /\ directory_after d (wd_log w2) (data_path base (si_segment_id info)) = Some data
    /\ directory_after d (wd_log w2) (index_path base (si_segment_id info)) = Some index.

(** The same call; the order in which a hash map is visited is nothing the
    caller chooses. *)
Definition same_call (a b : seg_op) : Prop :=
  match a, b with
  | SColumn ci cops, SColumn ci' cops' => ci = ci' /\ cops = cops'
  | SClose _, SClose _ => True
  | _, _ => False
  end.

(** The same calls always give the same files. *)
Definition C87_statement : Prop := forall p p' info ops ops' it it' data index data' index',
  Forall2 same_call ops ops' -> wrote p info ops it data index -> wrote p' info ops' it' data' index' ->
  data' = data /\ index' = index.

Lemma agrees_encoder_run ops : forall e acc, agrees (fun p => encoder_run p e ops acc).
Proof.
  induction ops as [|[b|] ops IH]; intros e acc; cbn [encoder_run]; [left; reflexivity|..].
  - apply agrees_bind; [apply agrees_bin_encode|]. intros [[e1 s1] res]. apply IH.
  - apply agrees_bind; [apply agrees_bin_flush|]. intros [[e1 s1] res]. apply IH.
Qed.

Lemma agrees_segment_blocks ops : agrees (fun p => segment_blocks p ops).
Proof.
  induction ops as [|[ci cops|it] ops IH]; cbn [segment_blocks]; [left; reflexivity|..|exact IH].
  apply agrees_bind.
  - unfold column_blocks. destruct (new_binary_encoder _ _ _) as [e|]; [apply agrees_encoder_run|left; reflexivity].
  - intros b. apply agrees_bind; [exact IH|]. intros more. left. reflexivity.
Qed.

Lemma builds_blocks p p' ops b b' : segment_blocks p ops = Ret b -> segment_blocks p' ops = Ret b' -> b = b'.
Proof. intros H H'. destruct (agrees_segment_blocks ops) as [G|G]; destruct p, p'; congruence. Qed.

Lemma same_blocks p ops : forall ops', Forall2 same_call ops ops' -> segment_blocks p ops = segment_blocks p ops'.
Proof.
  induction ops as [|o ops IH]; intros ops' F; inversion F as [|? o' ? r' S1 S2]; subst; [reflexivity|].
  destruct o as [ci cops|it], o' as [ci' cops'|it']; cbn [same_call] in S1; try contradiction; cbn [segment_blocks]; [destruct S1 as [-> ->]|]; rewrite (IH _ S2); reflexivity.
Qed.

Lemma same_closed ops : forall ops', Forall2 same_call ops ops' -> closed_columns ops = closed_columns ops'.
Proof.
  induction ops as [|o ops IH]; intros ops' F; inversion F as [|? o' ? r' S1 S2]; subst; [reflexivity|].
  unfold closed_columns in *. cbn [flat_map]. rewrite (IH _ S2). f_equal.
  destruct o as [ci cops|it], o' as [ci' cops'|it']; cbn [same_call] in S1; try contradiction; [destruct S1 as [-> ->]|]; reflexivity.
Qed.

(** The data file depends on nothing but the columns' settings and buffers: not
    on the machine, the build, the segment's name or the order of maps. *)
Theorem C87_data_partial : forall p p' info info' ops ops' it it' data index data' index',
  Forall2 same_call ops ops' -> wrote p info ops it data index -> wrote p' info' ops' it' data' index' -> data' = data.
Proof.
  intros p p' info info' ops ops' it it' data index data' index' F
    (d & w & base & w1 & sg & w2 & sg2 & rs & M & ID & NW & O & R & A & D & _)
    (d' & w' & base' & w1' & sg' & w2' & sg2' & rs' & M' & ID' & NW' & O' & R' & A' & D' & _).
  destruct (C45_data_file d _ _ _ _ _ _ _ _ _ _ _ M ID NW O R A) as (b & B & E).
  destruct (C45_data_file d' _ _ _ _ _ _ _ _ _ _ _ M' ID' NW' O' R' A') as (b' & B' & E').
  rewrite <- (same_blocks _ _ _ F) in B'. rewrite (builds_blocks _ _ _ _ _ B B') in E. congruence.
Qed.
Print Assumptions C87_data_partial.

(** ** Lengths *)

Lemma delimited_length tag a b : length a = length b -> length (put_delimited tag a) = length (put_delimited tag b).
Proof. intros E. unfold put_delimited. rewrite !app_length, E. reflexivity. Qed.

Lemma concat_length_perm {A} (f : A -> list N) a b : Permutation a b -> length (concat (map f a)) = length (concat (map f b)).
Proof. intros PE. induction PE; cbn [map concat]; rewrite ?app_length in *; lia. Qed.

Lemma metadata_length id db tb sh cs us nr cols cols' lays lays' : Permutation cols cols' -> Permutation lays lays' ->
  length (encode_metadata (mkmeta (Some (mksmeta id db tb sh cs us nr cols)) lays)) = length (encode_metadata (mkmeta (Some (mksmeta id db tb sh cs us nr cols')) lays')).
Proof.
  intros PC PL. unfold encode_metadata. cbn [md_segment_meta md_columns_layout put_message]. rewrite !app_length. f_equal.
  - apply delimited_length. unfold encode_segment_meta. cbn [sm_segment_id sm_database_name sm_table_name sm_shard_id sm_compressed_size sm_uncompressed_size sm_num_rows sm_columns_meta].
    rewrite !app_length. do 7 f_equal. unfold put_map. apply concat_length_perm, PC.
  - unfold put_map. apply concat_length_perm, PL.
Qed.

(** What the metadata is made of. *)
Lemma marks_meta os info idx : exists cols lays,
  fst (fold_left mark_step os (meta_new info, idx))
  = mkmeta (Some (mksmeta (si_segment_id info) (si_database_name info) (si_table_name info) (si_shard_id info) 0 0 (si_num_rows info) cols)) lays.
Proof.
  assert (G : forall st, (exists cols lays, fst st = mkmeta (Some (mksmeta (si_segment_id info) (si_database_name info) (si_table_name info) (si_shard_id info) 0 0 (si_num_rows info) cols)) lays) ->
              exists cols lays, fst (fold_left mark_step os st) = mkmeta (Some (mksmeta (si_segment_id info) (si_database_name info) (si_table_name info) (si_shard_id info) 0 0 (si_num_rows info) cols)) lays).
  { induction os as [|[ci|it] os IH]; intros st X; cbn [fold_left]; [exact X|..]; apply IH; cbn [mark_step fst].
    - destruct X as (cols & lays & ->). eexists _, _. reflexivity.
    - exact X. }
  apply G. eexists _, _. reflexivity.
Qed.

Definition order_ok (it : iteration) : Prop := (forall l, Permutation l (it_columns it l)) /\ (forall l, Permutation l (it_layouts it l)).

Lemma ordered_length it it' info idx os : order_ok it -> order_ok it' ->
  length (encode_metadata (meta_ordered it (fst (fold_left mark_step os (meta_new info, idx)))))
  = length (encode_metadata (meta_ordered it' (fst (fold_left mark_step os (meta_new info, idx))))).
Proof.
  intros [P1 P2] [P3 P4]. destruct (marks_meta os info idx) as (cols & lays & ->). unfold meta_ordered. cbn [md_segment_meta md_columns_layout sm_segment_id sm_database_name sm_table_name sm_shard_id sm_compressed_size sm_uncompressed_size sm_num_rows sm_columns_meta].
  apply metadata_length; (etransitivity; [apply Permutation_sym|]); auto.
Qed.

(** The marks of the same calls, visited in orders of their own. *)
Inductive same_marks : list (column_info + iteration) -> list (column_info + iteration) -> Prop :=
  | sm_nil : same_marks [] []
  | sm_col a b ci : same_marks a b -> same_marks (a ++ [inl ci]) (b ++ [inl ci])
  | sm_close a b it it' : same_marks a b -> order_ok it -> order_ok it' -> same_marks (a ++ [inr it]) (b ++ [inr it']).

Lemma same_marks_length a b : same_marks a b -> forall info,
  fst (fold_left mark_step a (meta_new info, index_file_signature)) = fst (fold_left mark_step b (meta_new info, index_file_signature))
  /\ length (snd (fold_left mark_step a (meta_new info, index_file_signature))) = length (snd (fold_left mark_step b (meta_new info, index_file_signature))).
Proof.
  induction 1 as [|a b ci H IH|a b it it' H IH K K']; intros info; [split; reflexivity|..]; rewrite !fold_left_app; cbn [fold_left mark_step fst snd]; destruct (IH info) as [E1 E2].
  - split; [rewrite E1; reflexivity|exact E2].
  - split; [exact E1|]. rewrite !app_length, !le_length, E2, E1, (ordered_length it it') by assumption. reflexivity.
Qed.

Lemma same_marks_cols cis : forall a b, same_marks a b -> same_marks (a ++ map inl cis) (b ++ map inl cis).
Proof.
  induction cis as [|ci cis IH]; intros a b H; cbn [map]; [rewrite !app_nil_r; exact H|].
  change (inl ci :: map inl cis) with ([@inl _ iteration ci] ++ map inl cis). rewrite !app_assoc. apply IH. constructor. exact H.
Qed.

Lemma same_calls_marks ops : forall ops' a b, Forall2 same_call ops ops' -> orders_ok ops -> orders_ok ops' -> same_marks a b -> same_marks (a ++ outline ops) (b ++ outline ops').
Proof.
  induction ops as [|o ops IH]; intros ops' a b F O O' H; inversion F as [|? o' ? r' S1 S2]; subst; [rewrite !app_nil_r; exact H|].
  apply Forall_cons_iff in O, O'. destruct O as [O1 O2], O' as [O1' O2']. unfold outline in *. cbn [flat_map]. rewrite !app_assoc. apply IH; auto.
  destruct o as [ci cops|it], o' as [ci' cops'|it']; cbn [same_call] in S1; try contradiction; cbn [marks_in].
  - destruct S1 as [-> ->]. apply same_marks_cols, H.
  - constructor; assumption.
Qed.

(** The index files of the same calls have the same length and say the same. *)
Theorem C87_index_partial : forall p p' info ops ops' it it' data index data' index',
  Forall2 same_call ops ops' -> wrote p info ops it data index -> wrote p' info ops' it' data' index' ->
  length index' = length index
  /\ skipn (length index - 8) index' = skipn (length index - 8) index
  /\ ((N.of_nat (length index) < 18446744073709551616)%N ->
      exists s lays s' lays', read_index_file index = Some (mkmeta (Some s) lays) /\ read_index_file index' = Some (mkmeta (Some s') lays')
        /\ sm_segment_id s' = sm_segment_id s /\ sm_database_name s' = sm_database_name s /\ sm_table_name s' = sm_table_name s
        /\ sm_shard_id s' = sm_shard_id s /\ sm_num_rows s' = sm_num_rows s
        /\ same_map (sm_columns_meta s) (sm_columns_meta s') /\ same_map lays lays').
Proof.
  intros p p' info ops ops' it it' data index data' index' F
    (d & w & base & w1 & sg & w2 & sg2 & rs & M & ID & NW & O & R & A & _ & D)
    (d' & w' & base' & w1' & sg' & w2' & sg2' & rs' & M' & ID' & NW' & O' & R' & A' & _ & D').
  destruct (closed_files d _ _ _ _ _ _ _ _ _ _ _ M ID NW O R A) as (b & mid & m & _ & FM & FI & EM & _ & _ & E).
  destruct (closed_files d' _ _ _ _ _ _ _ _ _ _ _ M' ID' NW' O' R' A') as (b' & mid' & m' & _ & FM' & FI' & EM' & _ & _ & E').
  assert (SM : same_marks (outline ops) (outline ops')).
  { apply (same_calls_marks ops ops' [] []); [exact F|apply Forall_app in O; apply O|apply Forall_app in O'; apply O'|constructor]. }
  destruct (same_marks_length _ _ SM info) as [X1 X2]. rewrite FI, FI' in X2. rewrite FM, FM' in X1. rewrite !app_length in X2.
  assert (OI : order_ok it) by (apply Forall_app in O; destruct O as [_ O]; apply Forall_cons_iff in O; apply O).
  assert (OI' : order_ok it') by (apply Forall_app in O'; destruct O' as [_ O']; apply Forall_cons_iff in O'; apply O').
  assert (LM : length mid = length mid') by lia.
  assert (LE : length (encode_metadata m) = length (encode_metadata m')) by (rewrite EM, EM', <- X1, <- FM; apply ordered_length; assumption).
  rewrite D in E. rewrite D' in E'. apply some_inv in E, E'.
  assert (L : length index' = length index) by (rewrite E, E', !app_length, LE, LM, !le_length; reflexivity).
  split; [exact L|]. split.
  { assert (T : forall l x y z t : list BinNums.N, l = x ++ y ++ z ++ t -> length t = 8 -> skipn (length l - 8) l = t).
    { intros l x y z t -> HT. rewrite (app_assoc y), (app_assoc x), skipn_app, (skipn_all2 (x ++ y ++ z)) by (rewrite !app_length in *; lia).
      replace (length ((x ++ y ++ z) ++ t) - 8 - length (x ++ y ++ z)) with 0 by (rewrite (app_length _ t); lia). reflexivity. }
    rewrite (T _ _ _ _ _ E (le_length _ _)). rewrite <- L, (T _ _ _ _ _ E' (le_length _ _)), LM. reflexivity. }
  intros SZ. assert (SZ' := SZ). rewrite <- L in SZ'.
  destruct (closed_read d p w base info w1 sg ops it w2 sg2 rs index M ID NW O R A D SZ) as (cols & lays & R1 & DC & DL).
  destruct (closed_read d' p' w' base' info w1' sg' ops' it' w2' sg2' rs' index' M' ID' NW' O' R' A' D' SZ') as (cols' & lays' & R2 & DC' & DL').
  rewrite <- (same_closed _ _ F) in DC', DL'. eexists _, lays, _, lays'. split; [exact R1|]. split; [exact R2|].
  cbn [sm_segment_id sm_database_name sm_table_name sm_shard_id sm_num_rows sm_columns_meta].
  do 5 (split; [reflexivity|]). split; eapply describes_same; eassumption.
Qed.
Print Assumptions C87_index_partial.

(** ** When the bytes are the same *)

(** With no more than one name among the columns closed there is only one order
    to visit a map in. *)
Definition one_name (closed : list column_info) : Prop := forall a b, In a closed -> In b closed -> ci_name a = ci_name b.

Lemma one_name_short {A} (f : column_info -> A) closed m : one_name closed -> describes f closed m -> length m <= 1.
Proof.
  intros ON [ND DE]. destruct m as [|[k v] [|[k' v'] m]]; cbn [length]; try lia. exfalso.
  assert (I1 : exists a, In a closed /\ ci_name a = k).
  { specialize (DE k). cbn [assoc] in DE. destruct (list_eq_dec N.eq_dec k k); [|congruence]. destruct (last_named k closed) as [a|] eqn:L; [|discriminate].
    apply find_some in L. destruct L as [L1 L2]. exists a. split; [apply in_rev, L1|]. destruct (list_eq_dec N.eq_dec k (ci_name a)); congruence. }
  assert (I2 : exists a, In a closed /\ ci_name a = k').
  { cbn [map fst] in ND. inversion ND as [|? ? N1 N2]; subst. specialize (DE k'). cbn [assoc] in DE. destruct (list_eq_dec N.eq_dec k' k) as [->|_]; [exfalso; apply N1; left; reflexivity|].
    destruct (list_eq_dec N.eq_dec k' k'); [|congruence]. destruct (last_named k' closed) as [a|] eqn:L; [|discriminate].
    apply find_some in L. destruct L as [L1 L2]. exists a. split; [apply in_rev, L1|]. destruct (list_eq_dec N.eq_dec k' (ci_name a)); congruence. }
  destruct I1 as (a & A1 & <-), I2 as (b & B1 & <-). cbn [map fst] in ND. inversion ND as [|? ? N1 N2]; subst. apply N1. left. symmetry. apply ON; assumption.
Qed.

Lemma short_perm {A} (l l' : list A) : length l <= 1 -> Permutation l l' -> l' = l.
Proof. intros H PE. destruct l as [|x [|y l]]; cbn [length] in H; [apply Permutation_nil, PE|apply Permutation_length_1_inv, PE|lia]. Qed.

Lemma ordered_short it m info closed : order_ok it -> meta_ok info closed m -> one_name closed -> meta_ordered it m = m.
Proof.
  intros [P1 P2] (cols & lays & -> & DC & DL) ON. unfold meta_ordered. cbn [md_segment_meta md_columns_layout sm_segment_id sm_database_name sm_table_name sm_shard_id sm_compressed_size sm_uncompressed_size sm_num_rows sm_columns_meta].
  rewrite (short_perm cols (it_columns it cols)), (short_perm lays (it_layouts it lays)); auto; eapply one_name_short; eassumption.
Qed.

Lemma insert_ok info closed ci m : meta_ok info closed m -> meta_ok info (closed ++ [ci]) (meta_insert ci m).
Proof.
  intros (cols & lays & -> & DC & DL). unfold meta_insert. cbn [md_segment_meta md_columns_layout sm_segment_id sm_database_name sm_table_name sm_shard_id sm_compressed_size sm_uncompressed_size sm_num_rows sm_columns_meta].
  eexists _, _. split; [reflexivity|]. split; apply describes_insert; assumption.
Qed.

Fixpoint mark_columns (l : list (column_info + iteration)) : list column_info :=
  match l with [] => [] | inl ci :: r => ci :: mark_columns r | inr _ :: r => mark_columns r end.

Lemma mark_columns_app a b : mark_columns (a ++ b) = mark_columns a ++ mark_columns b.
Proof. induction a as [|[|] a IH]; cbn [app mark_columns]; rewrite ?IH; reflexivity. Qed.

Lemma mark_columns_outline ops : mark_columns (outline ops) = closed_columns ops.
Proof.
  unfold outline, closed_columns. induction ops as [|o ops IH]; [reflexivity|]. cbn [flat_map]. rewrite mark_columns_app, IH. f_equal.
  destruct o as [ci cops|it]; cbn [marks_in closed_in]; [|reflexivity]. generalize (flat_map (fun c => match c with CWrite _ => [] | CClose => [ci] end) cops).
  intros l. induction l as [|x l IHl]; cbn [map mark_columns]; [|rewrite IHl]; reflexivity.
Qed.

Lemma meta_new_ok info : meta_ok info [] (meta_new info).
Proof. eexists _, _. split; [reflexivity|]. split; (split; [constructor|]); intros name; reflexivity. Qed.

Lemma same_marks_bytes a b : same_marks a b -> one_name (mark_columns a) -> forall info,
  meta_ok info (mark_columns a) (fst (fold_left mark_step a (meta_new info, index_file_signature)))
  /\ fold_left mark_step a (meta_new info, index_file_signature) = fold_left mark_step b (meta_new info, index_file_signature).
Proof.
  induction 1 as [|a b ci H IH|a b it it' H IH K K']; intros ON info; [split; [apply meta_new_ok|reflexivity]|..]; rewrite mark_columns_app in *; cbn [mark_columns] in *; rewrite !fold_left_app; cbn [fold_left mark_step fst snd].
  - destruct (IH (fun x y X Y => ON x y (in_or_app _ _ _ (or_introl X)) (in_or_app _ _ _ (or_introl Y))) info) as [E1 E2]. split; [apply insert_ok, E1|rewrite E2; reflexivity].
  - rewrite app_nil_r in *. destruct (IH ON info) as [E1 E2]. split; [exact E1|]. rewrite <- E2. rewrite !(ordered_short _ _ _ _ K E1 ON), !(ordered_short _ _ _ _ K' E1 ON). reflexivity.
Qed.

Theorem C87_one_name_partial : forall p p' info ops ops' it it' data index data' index',
  Forall2 same_call ops ops' -> wrote p info ops it data index -> wrote p' info ops' it' data' index' ->
  one_name (closed_columns ops) -> data' = data /\ index' = index.
Proof.
  intros p p' info ops ops' it it' data index data' index' F WR WR' ON. split; [eapply C87_data_partial; eassumption|].
  destruct WR as (d & w & base & w1 & sg & w2 & sg2 & rs & M & ID & NW & O & R & A & _ & D).
  destruct WR' as (d' & w' & base' & w1' & sg' & w2' & sg2' & rs' & M' & ID' & NW' & O' & R' & A' & _ & D').
  destruct (closed_files d _ _ _ _ _ _ _ _ _ _ _ M ID NW O R A) as (b & mid & m & _ & FM & FI & EM & _ & _ & E).
  destruct (closed_files d' _ _ _ _ _ _ _ _ _ _ _ M' ID' NW' O' R' A') as (b' & mid' & m' & _ & FM' & FI' & EM' & _ & _ & E').
  assert (SM : same_marks (outline ops) (outline ops')).
  { apply (same_calls_marks ops ops' [] []); [exact F|apply Forall_app in O; apply O|apply Forall_app in O'; apply O'|constructor]. }
  assert (OI : order_ok it) by (apply Forall_app in O; destruct O as [_ O]; apply Forall_cons_iff in O; apply O).
  assert (OI' : order_ok it') by (apply Forall_app in O'; destruct O' as [_ O']; apply Forall_cons_iff in O'; apply O').
  assert (ON' := ON). rewrite <- mark_columns_outline in ON'. destruct (same_marks_bytes _ _ SM ON' info) as [MK EQ].
  rewrite <- EQ in FM', FI'. rewrite FM in FM', MK. rewrite FI in FI'. apply app_inv_head in FI'. subst mid'.
  rewrite D in E. rewrite D' in E'. apply some_inv in E, E'. rewrite E, E', EM, EM', <- FM'.
  rewrite !(ordered_short _ _ _ _ OI MK ON'), !(ordered_short _ _ _ _ OI' MK ON'). reflexivity.
Qed.
Print Assumptions C87_one_name_partial.

(** Maps visited in the same order give the same bytes, whatever else is
    different. *)
Theorem C87_same_order_partial : forall p p' info ops it data index data' index',
  wrote p info ops it data index -> wrote p' info ops it data' index' -> data' = data /\ index' = index.
Proof.
  intros p p' info ops it data index data' index' WR WR'. split.
  - eapply C87_data_partial; [|exact WR|exact WR']. clear. induction ops as [|[ci cops|i] ops IH]; constructor; cbn [same_call]; auto.
  - destruct WR as (d & w & base & w1 & sg & w2 & sg2 & rs & M & ID & NW & O & R & A & _ & D).
    destruct WR' as (d' & w' & base' & w1' & sg' & w2' & sg2' & rs' & M' & ID' & NW' & O' & R' & A' & _ & D').
    destruct (closed_files d _ _ _ _ _ _ _ _ _ _ _ M ID NW O R A) as (b & mid & m & _ & FM & FI & EM & _ & _ & E).
    destruct (closed_files d' _ _ _ _ _ _ _ _ _ _ _ M' ID' NW' O' R' A') as (b' & mid' & m' & _ & FM' & FI' & EM' & _ & _ & E').
    rewrite FI in FI'. apply app_inv_head in FI'. subst mid'. rewrite FM in FM'. congruence.
Qed.
Print Assumptions C87_same_order_partial.

(** *** Exactly when, for segments closed once *)

(** The segment is not closed before the end. *)
Definition not_closed (ops : list seg_op) : Prop := Forall (fun o => match o with SColumn _ _ => True | SClose _ => False end) ops.

Lemma not_closed_marks ops : not_closed ops -> forall m idx, snd (fold_left mark_step (outline ops) (m, idx)) = idx.
Proof.
  unfold outline. induction 1 as [|o ops H _ IH]; intros m idx; [reflexivity|]. cbn [flat_map]. rewrite fold_left_app.
  destruct o as [ci cops|it]; [|contradiction]. cbn [marks_in]. rewrite marks_insert. apply IH.
Qed.

(** What an index file of a segment closed once consists of, and what is read. *)
Lemma once_read p info ops it data index : not_closed ops -> wrote p info ops it data index -> (N.of_nat (length index) < 18446744073709551616)%N ->
  exists m, index = index_file_signature ++ encode_metadata m ++ le_bytes 8 12 /\ meta_ok info (closed_columns ops) m /\ read_index_file index = Some m.
Proof.
  intros NC (d & w & base & w1 & sg & w2 & sg2 & rs & M & ID & NW & O & R & A & _ & D) SZ.
  pose proof (C46_footer d p w base info w1 sg ops it w2 sg2 rs index M ID NW O R A D SZ) as (F1 & F2 & F3 & _).
  destruct (closed_files d _ _ _ _ _ _ _ _ _ _ _ M ID NW O R A) as (b & mid & m & _ & _ & FI & _ & MO & _ & E).
  rewrite (not_closed_marks ops NC) in FI. assert (EM : mid = []).
  { destruct mid as [|x mid]; [reflexivity|]. apply (f_equal (@length _)) in FI. rewrite app_length in FI. cbn [length] in FI. lia. }
  subst mid. cbn [app length] in E. change (N.of_nat (12 + 0)) with 12%N in E. rewrite D in E. apply some_inv in E. exists m. split; [exact E|]. split; [exact MO|].
  destruct (footer_reads index_file_signature (encode_metadata m)) as (E1 & _ & E3); [reflexivity|]. cbn zeta in E1, E3.
  change (N.of_nat (length index_file_signature)) with 12%N in *. rewrite <- E in E1, E3.
  unfold read_index_file. cbn zeta. rewrite (proj2 (Nat.leb_le _ _) F3), (proj2 (Nat.leb_le _ _) (proj1 F2)), (proj2 (Nat.leb_le _ _) (proj2 F2)). cbn [andb].
  rewrite F1. destruct (list_eq_dec N.eq_dec _ _) as [_|n]; [|congruence]. rewrite E1. change (N.to_nat 12) with (length index_file_signature). rewrite E3. eapply meta_ok_readable, MO.
Qed.

Lemma same_keys {A} (f : column_info -> A) closed a b : describes f closed a -> describes f closed b -> map fst a = map fst b -> a = b.
Proof.
  intros [NA DA] [NB DB] K.
  assert (G : forall n, assoc n a = assoc n b) by (intros n; rewrite DA, DB; reflexivity). clear DA DB. revert b NA NB K G.
  induction a as [|[k v] a IH]; intros [|[k' v'] b] NA NB K G; try discriminate K; [reflexivity|]. cbn [map fst] in *. injection K as -> K.
  inversion NA as [|? ? A1 A2]; inversion NB as [|? ? B1 B2]; subst.
  pose proof (G k') as V. cbn [assoc] in V. destruct (list_eq_dec N.eq_dec k' k') as [_|n]; [|congruence]. injection V as ->. f_equal. apply IH; auto.
  intros n. specialize (G n). cbn [assoc] in G. destruct (list_eq_dec N.eq_dec n k') as [->|_]; [|exact G].
  assert (Z : forall (l : list (list N * A)), ~ In k' (map fst l) -> assoc k' l = None).
  { clear. induction l as [|[x y] l IH]; intros H; cbn [assoc]; [reflexivity|]. cbn [map fst] in H. destruct (list_eq_dec N.eq_dec k' x) as [->|_]; [exfalso; apply H; left; reflexivity|]. apply IH. intros C. apply H. right. exact C. }
  rewrite (Z a A1), (Z b B1). reflexivity.
Qed.

(** The index files of the same calls, closed once, have the same bytes exactly if
    the columns are listed in the same order, in both maps. *)
Theorem C87_order_exact : forall p p' info ops ops' it it' data index data' index',
  Forall2 same_call ops ops' -> not_closed ops -> wrote p info ops it data index -> wrote p' info ops' it' data' index' ->
  (N.of_nat (length index) < 18446744073709551616)%N ->
  exists s lays s' lays', read_index_file index = Some (mkmeta (Some s) lays) /\ read_index_file index' = Some (mkmeta (Some s') lays')
    /\ (index' = index <-> map fst (sm_columns_meta s') = map fst (sm_columns_meta s) /\ map fst lays' = map fst lays).
Proof.
  intros p p' info ops ops' it it' data index data' index' F NC WR WR' SZ.
  destruct (C87_index_partial _ _ _ _ _ _ _ _ _ _ _ F WR WR') as (L & _).
  assert (NC' : not_closed ops').
  { clear -F NC. unfold not_closed in *. induction F as [|a b ops ops' H _ IH]; constructor; apply Forall_cons_iff in NC; [|tauto]. destruct NC as [NC _], a, b; cbn [same_call] in H; tauto. }
  destruct (once_read p info ops it data index NC WR SZ) as (m & E & (cols & lays & -> & DC & DL) & R).
  destruct (once_read p' info ops' it' data' index' NC' WR' ltac:(rewrite L; exact SZ)) as (m' & E' & (cols' & lays' & -> & DC' & DL') & R').
  rewrite <- (same_closed _ _ F) in DC', DL'. eexists _, lays, _, lays'. split; [exact R|]. split; [exact R'|]. cbn [sm_columns_meta]. split.
  - intros X. rewrite X, R in R'. injection R' as -> ->. split; reflexivity.
  - intros [K1 K2]. rewrite E, E'. rewrite (same_keys _ _ _ _ DC' DC K1), (same_keys _ _ _ _ DL' DL K2). reflexivity.
Qed.
Print Assumptions C87_order_exact.

(** ** A segment written twice *)

(** The files of a run, if all calls succeed. *)
Definition produced (p : profile) (w : world) (base : path) (info : segment_info) (ops : list seg_op) : option (list N * list N) :=
  match run_from p w base info ops with
  | Some (w2, _, rs) =>
      if forallb (fun r => match r with Ok _ => true | Err => false end) rs then
        match directory_after (fun _ => None) (wd_log w2) (data_path base (si_segment_id info)),
              directory_after (fun _ => None) (wd_log w2) (index_path base (si_segment_id info)) with
        | Some data, Some index => Some (data, index)
        | _, _ => None
        end
      else None
  | None => None
  end.

Lemma produced_wrote p w base info ops it data index : 0 < wd_max w -> is_id (si_segment_id info) -> orders_ok (ops ++ [SClose it]) ->
  produced p w base info (ops ++ [SClose it]) = Some (data, index) -> wrote p info ops it data index.
Proof.
  intros M ID O H. unfold produced, run_from in H. destruct (segment_new w base info) as [w1 [sg|]] eqn:NW; [|discriminate].
  destruct (seg_run p w1 sg (ops ++ [SClose it])) as [[[w2 sg2] rs]|k|] eqn:R; try discriminate.
  destruct (forallb _ rs) eqn:FB; [|discriminate].
  destruct (directory_after _ _ (data_path base _)) as [x|] eqn:D1; [|discriminate]. destruct (directory_after _ _ (index_path base _)) as [y|] eqn:D2; [|discriminate].
  injection H as -> ->. exists (fun _ => None), w, base, w1, sg, w2, sg2, rs. do 5 (split; [assumption|]). split; [|split; assumption].
  apply Forall_forall. intros r I. rewrite forallb_forall in FB. specialize (FB r I). destruct r as [[]|]; [reflexivity|discriminate].
Qed.

Definition id_it : iteration := mkiter (fun l => l) (fun l => l).
Definition rev_it : iteration := mkiter (@rev _) (@rev _).

Definition two_ops : list seg_op := [SColumn ex_a [CWrite ex_buf; CClose]; SColumn ex_b [CWrite ex_buf; CClose]].

Lemma ex_id : is_id (si_segment_id ex_info).
Proof. split; [reflexivity|repeat constructor]. Qed.

(** Two columns, "a" and "b": an index file lists either first. *)
Theorem C87_same_bytes_refuted : ~ C87_statement.
Proof.
  intros ST.
  destruct (produced Debug ex_world ex_base ex_info (two_ops ++ [SClose id_it])) as [[data index]|] eqn:E1; [|vm_compute in E1; discriminate].
  destruct (produced Debug ex_world ex_base ex_info (two_ops ++ [SClose rev_it])) as [[data' index']|] eqn:E2; [|vm_compute in E2; discriminate].
  assert (W1 : wrote Debug ex_info two_ops id_it data index).
  { apply (produced_wrote _ ex_world ex_base); [cbn; lia|apply ex_id|repeat constructor; intros l; apply Permutation_refl|exact E1]. }
  assert (W2 : wrote Debug ex_info two_ops rev_it data' index').
  { apply (produced_wrote _ ex_world ex_base); [cbn; lia|apply ex_id|repeat constructor; intros l; apply Permutation_rev|exact E2]. }
  destruct (ST Debug Debug ex_info two_ops two_ops id_it rev_it data index data' index') as [_ X]; [repeat constructor|exact W1|exact W2|].
  vm_compute in E1. vm_compute in E2. injection E1 as <- <-. injection E2 as <- <-. discriminate X.
Qed.
Print Assumptions C87_same_bytes_refuted.

(** The same two runs, the second by another build on a machine that writes five
    bytes at a time: the data files are the same, the index files of the same
    length.  With column "a" alone, added twice, everything is the same. *)
Example C87_witness :
  match produced Debug ex_world ex_base ex_info (two_ops ++ [SClose id_it]),
        produced Release (mkworld [] [] 5) [120]%N ex_info (two_ops ++ [SClose rev_it]) with
  | Some (data, index), Some (data', index') => data' = data /\ length data = 204 /\ index' <> index /\ length index' = length index /\ length index = 107
  | _, _ => False
  end.
Proof. vm_compute. repeat split. discriminate. Qed.

Example C87_order_witness :
  not_closed two_ops
  /\ match produced Debug ex_world ex_base ex_info (two_ops ++ [SClose id_it]),
           produced Release ex_world ex_base ex_info (two_ops ++ [SClose (mkiter (fun l => l) (@rev _))]) with
     | Some (_, index), Some (_, index') =>
         match read_index_file index, read_index_file index' with
         | Some (mkmeta (Some s) lays), Some (mkmeta (Some s') lays') =>
             map fst (sm_columns_meta s) = [[97]; [98]]%N /\ map fst lays = [[97]; [98]]%N
             /\ map fst (sm_columns_meta s') = [[97]; [98]]%N /\ map fst lays' = [[98]; [97]]%N /\ index' <> index
         | _, _ => False end
     | _, _ => False
     end.
Proof. split; [repeat constructor|]. vm_compute. repeat split. discriminate. Qed.

Example C87_one_name_witness :
  let ops := [SColumn ex_a [CWrite ex_buf; CClose]; SColumn ex_a2 [CClose]] in
  one_name (closed_columns ops)
  /\ match produced Debug ex_world ex_base ex_info (ops ++ [SClose id_it]), produced Debug ex_world ex_base ex_info (ops ++ [SClose rev_it]) with
     | Some x, Some y => x = y
     | _, _ => False
     end.
Proof. split; [|vm_compute; reflexivity]. intros a b [<-|[<-|[]]] [<-|[<-|[]]]; reflexivity. Qed.

(** * C88: the order of the columns *)

Definition columns (cols : list (column_info * list col_op)) : list seg_op := map (fun c => SColumn (fst c) (snd c)) cols.

Definition different_names (cols : list (column_info * list col_op)) : Prop := NoDup (map (fun c => ci_name (fst c)) cols).

Lemma columns_blocks_perm p cols cols' : Permutation cols cols' -> forall b, segment_blocks p (columns cols) = Ret b ->
  exists b', segment_blocks p (columns cols') = Ret b' /\ Permutation b b'.
Proof.
  induction 1 as [|x l l' PE IH|x y l|l l1 l2 P1 IH1 P2 IH2]; intros b H; unfold columns in *; cbn [map segment_blocks] in *.
  - exists b. split; [exact H|apply Permutation_refl].
  - destruct (column_blocks p (fst x) (snd x)) as [bx|k|]; cbn [bind] in *; try discriminate.
    destruct (segment_blocks p (map _ l)) as [bl|k|]; cbn [bind] in *; try discriminate. injection H as <-.
    destruct (IH _ eq_refl) as (b' & -> & Q). cbn [bind]. eexists. split; [reflexivity|]. apply Permutation_app_head, Q.
  - destruct (column_blocks p (fst x) (snd x)) as [bx|k|]; cbn [bind] in *; try (destruct (column_blocks p (fst y) (snd y)); discriminate).
    destruct (column_blocks p (fst y) (snd y)) as [by_|k|]; cbn [bind] in *; try discriminate.
    destruct (segment_blocks p (map _ l)) as [bl|k|]; cbn [bind] in *; try discriminate. injection H as <-. eexists. split; [reflexivity|].
    rewrite !app_assoc. apply Permutation_app_tail, Permutation_app_comm.
  - destruct (IH1 _ H) as (b1 & H1 & Q1). destruct (IH2 _ H1) as (b2 & H2 & Q2). exists b2. split; [exact H2|]. etransitivity; eassumption.
Qed.

Lemma bytes_in_perm a b : Permutation a b -> length (concat (map (@snd N (list N)) a)) = length (concat (map snd b)).
Proof. apply concat_length_perm. Qed.

Lemma columns_outline cols : outline (columns cols) = map inl (closed_columns (columns cols)).
Proof.
  unfold outline, closed_columns, columns. induction cols as [|c cols IH]; [reflexivity|]. cbn [map flat_map]. rewrite map_app, IH. reflexivity.
Qed.

Lemma closed_in_columns cols ci : In ci (closed_columns (columns cols)) <-> exists cops, In (ci, cops) cols /\ In CClose cops.
Proof.
  unfold closed_columns, columns. rewrite in_flat_map. split.
  - intros (o & I1 & I2). apply in_map_iff in I1. destruct I1 as ([c cops] & <- & I1). cbn [closed_in fst snd] in I2. apply in_flat_map in I2.
    destruct I2 as ([|] & J1 & J2); [contradiction|]. destruct J2 as [<-|[]]. exists cops. auto.
  - intros (cops & I1 & I2). exists (SColumn ci cops). split; [apply in_map_iff; exists (ci, cops); auto|]. cbn [closed_in]. apply in_flat_map. exists CClose. split; [exact I2|left; reflexivity].
Qed.

Lemma last_named_in name closed ci : (forall a b, In a closed -> In b closed -> ci_name a = ci_name b -> a = b) ->
  last_named name closed = Some ci <-> In ci closed /\ ci_name ci = name.
Proof.
  intros U. split.
  - intros L. apply find_some in L. destruct L as [L1 L2]. apply in_rev in L1. split; [exact L1|]. destruct (list_eq_dec N.eq_dec name (ci_name ci)); congruence.
  - intros [I <-]. destruct (last_named (ci_name ci) closed) as [x|] eqn:L.
    + apply find_some in L. destruct L as [L1 L2]. apply in_rev in L1. f_equal. apply U; auto. destruct (list_eq_dec N.eq_dec (ci_name ci) (ci_name x)); congruence.
    + exfalso. apply in_rev in I. pose proof (find_none _ _ L _ I) as K. cbn beta in K. destruct (list_eq_dec N.eq_dec (ci_name ci) (ci_name ci)); congruence.
Qed.

Lemma different_unique cols : different_names cols -> forall a b, In a (closed_columns (columns cols)) -> In b (closed_columns (columns cols)) -> ci_name a = ci_name b -> a = b.
Proof.
  intros ND a b A B E. apply closed_in_columns in A, B. destruct A as (ca & A & _), B as (cb & B & _).
  assert (X : (a, ca) = (b, cb)); [|congruence]. unfold different_names in ND.
  clear - ND A B E. induction cols as [|c cols IH]; [contradiction|]. cbn [map] in ND. inversion ND as [|? ? N1 N2]; subst.
  destruct A as [->|A], B as [->|B].
  - reflexivity.
  - exfalso. apply N1. cbn [fst]. rewrite E. apply (in_map (fun c => ci_name (fst c)) _ _ B).
  - exfalso. apply N1. cbn [fst]. rewrite <- E. apply (in_map (fun c => ci_name (fst c)) _ _ A).
  - auto.
Qed.

Lemma last_named_perm cols cols' name : Permutation cols cols' -> different_names cols ->
  last_named name (closed_columns (columns cols)) = last_named name (closed_columns (columns cols')).
Proof.
  intros PE ND. assert (ND' : different_names cols') by (unfold different_names in *; eapply Permutation_NoDup; [|exact ND]; apply Permutation_map, PE).
  assert (I : forall ci, In ci (closed_columns (columns cols)) <-> In ci (closed_columns (columns cols'))).
  { intros ci. rewrite !closed_in_columns. split; intros (cops & A & B); exists cops; (split; [|exact B]); [eapply Permutation_in; [exact PE|exact A]|eapply Permutation_in; [apply Permutation_sym, PE|exact A]]. }
  destruct (last_named name (closed_columns (columns cols'))) as [ci|] eqn:L'.
  - apply last_named_in in L'; [|apply different_unique, ND']. apply last_named_in; [apply different_unique, ND|]. rewrite I. exact L'.
  - destruct (last_named name (closed_columns (columns cols))) as [ci|] eqn:L; [|reflexivity].
    apply last_named_in in L; [|apply different_unique, ND]. rewrite I in L. apply last_named_in in L; [|apply different_unique, ND']. congruence.
Qed.

Lemma describes_perm_cols {A} (f : column_info -> A) cols cols' m : Permutation cols cols' -> different_names cols ->
  describes f (closed_columns (columns cols')) m -> describes f (closed_columns (columns cols)) m.
Proof. intros PE ND [N1 D]. split; [exact N1|]. intros name. rewrite (last_named_perm _ _ _ PE ND). apply D. Qed.

Lemma same_map_perm {A} (a b : list (list N * A)) : same_map a b -> Permutation a b.
Proof.
  intros (NA & NB & E). apply NoDup_Permutation.
  - eapply NoDup_map_inv, NA.
  - eapply NoDup_map_inv, NB.
  - intros [k v]. apply E.
Qed.

Lemma columns_index d p w base info w1 sg cols it w2 sg2 rs index :
  0 < wd_max w -> is_id (si_segment_id info) -> segment_new w base info = (w1, Ok sg) ->
  orders_ok (columns cols ++ [SClose it]) -> seg_run p w1 sg (columns cols ++ [SClose it]) = Ret (w2, sg2, rs) -> all_ok rs ->
  directory_after d (wd_log w2) (index_path base (si_segment_id info)) = Some index ->
  exists m, meta_ok info (closed_columns (columns cols)) m /\ index = index_file_signature ++ encode_metadata m ++ le_bytes 8 12.
Proof.
  intros M ID NW O R A D. destruct (closed_files d _ _ _ _ _ _ _ _ _ _ _ M ID NW O R A) as (b & mid & m & _ & FM & FI & EM & MO & _ & E).
  exists m. split; [exact MO|]. rewrite columns_outline, marks_insert in FI. cbn [snd] in FI.
  assert (mid = []) as -> by (apply (app_inv_head index_file_signature); rewrite app_nil_r; congruence). rewrite D in E. apply some_inv in E. exact E.
Qed.

(** Columns of different names, written in two orders: the files have the same
    lengths, the metadata is the same, and every column has the same blocks in
    both data files, where the columns written before it end. *)
Theorem C88_order : forall p p' info cols cols' it it' data index data' index',
  Permutation cols cols' -> different_names cols ->
  wrote p info (columns cols) it data index -> wrote p' info (columns cols') it' data' index' ->
  length data' = length data /\ length index' = length index
  /\ ((N.of_nat (length index) < 18446744073709551616)%N ->
      exists s lays s' lays', read_index_file index = Some (mkmeta (Some s) lays) /\ read_index_file index' = Some (mkmeta (Some s') lays')
        /\ sm_segment_id s' = sm_segment_id s /\ sm_database_name s' = sm_database_name s /\ sm_table_name s' = sm_table_name s
        /\ sm_shard_id s' = sm_shard_id s /\ sm_num_rows s' = sm_num_rows s
        /\ same_map (sm_columns_meta s) (sm_columns_meta s') /\ same_map lays lays')
  /\ (forall before ci cops after before' after', cols = before ++ (ci, cops) :: after -> cols' = before' ++ (ci, cops) :: after' ->
      exists earlier earlier' blocks,
        segment_blocks p (columns before) = Ret earlier /\ segment_blocks p' (columns before') = Ret earlier'
        /\ column_blocks p ci cops = Ret blocks /\ column_blocks p' ci cops = Ret blocks
        /\ let bytes := concat (map snd blocks) in
           firstn (length bytes) (skipn (13 + length (concat (map snd earlier))) data) = bytes
           /\ firstn (length bytes) (skipn (13 + length (concat (map snd earlier'))) data') = bytes).
Proof.
  intros p p' info cols cols' it it' data index data' index' PE ND
    (d & w & base & w1 & sg & w2 & sg2 & rs & M & ID & NW & O & R & A & DD & D)
    (d' & w' & base' & w1' & sg' & w2' & sg2' & rs' & M' & ID' & NW' & O' & R' & A' & DD' & D').
  destruct (C45_data_file d _ _ _ _ _ _ _ _ _ _ _ M ID NW O R A) as (b & B & E). rewrite DD in E. apply some_inv in E.
  destruct (C45_data_file d' _ _ _ _ _ _ _ _ _ _ _ M' ID' NW' O' R' A') as (b' & B' & E'). rewrite DD' in E'. apply some_inv in E'.
  destruct (columns_index d _ _ _ _ _ _ _ _ _ _ _ _ M ID NW O R A D) as (m & MO & EI).
  destruct (columns_index d' _ _ _ _ _ _ _ _ _ _ _ _ M' ID' NW' O' R' A' D') as (m' & MO' & EI').
  assert (L : length index' = length index).
  { rewrite EI, EI', !app_length. f_equal. f_equal. destruct MO as (c & l & -> & DC & DL), MO' as (c' & l' & -> & DC' & DL').
    apply (describes_perm_cols _ _ _ _ PE ND) in DC', DL'. apply metadata_length; apply same_map_perm; eapply describes_same; eassumption. }
  split; [|split; [exact L|split]].
  - destruct (columns_blocks_perm p _ _ PE _ B) as (b2 & B2 & Q). rewrite (builds_blocks _ _ _ _ _ B' B2) in E'.
    rewrite E, E', !app_length. f_equal. symmetry. apply bytes_in_perm, Q.
  - intros SZ. assert (SZ' := SZ). rewrite <- L in SZ'.
    destruct (closed_read d p w base info w1 sg _ it w2 sg2 rs index M ID NW O R A D SZ) as (c & l & R1 & DC & DL).
    destruct (closed_read d' p' w' base' info w1' sg' _ it' w2' sg2' rs' index' M' ID' NW' O' R' A' D' SZ') as (c' & l' & R2 & DC' & DL').
    apply (describes_perm_cols _ _ _ _ PE ND) in DC', DL'. eexists _, l, _, l'. split; [exact R1|]. split; [exact R2|].
    cbn [sm_segment_id sm_database_name sm_table_name sm_shard_id sm_num_rows sm_columns_meta].
    do 5 (split; [reflexivity|]). split; eapply describes_same; eassumption.
  - intros before ci cops after before' after' -> ->.
    assert (G : forall p b x y, segment_blocks p (columns (x ++ (ci, cops) :: y)) = Ret b -> exists e bl more,
                segment_blocks p (columns x) = Ret e /\ column_blocks p ci cops = Ret bl /\ b = e ++ bl ++ more).
    { intros q bb x y H. unfold columns in *. rewrite map_app, segment_blocks_app in H. cbn [map segment_blocks fst snd] in H.
      destruct (segment_blocks q (map _ x)) as [e|k|]; cbn [bind] in H; try discriminate. destruct (column_blocks q ci cops) as [bl|k|]; cbn [bind] in H; try discriminate.
      destruct (segment_blocks q (map _ y)) as [mo|k|]; cbn [bind] in H; try discriminate. injection H as <-. exists e, bl, mo. auto. }
    destruct (G _ _ _ _ B) as (e & bl & mo & Ee & Eb & ->). destruct (G _ _ _ _ B') as (e' & bl' & mo' & Ee' & Eb' & ->).
    assert (bl' = bl) as ->.
    { assert (X : segment_blocks p [SColumn ci cops] = Ret bl) by (cbn [segment_blocks]; rewrite Eb; cbn [bind]; rewrite app_nil_r; reflexivity).
      assert (X' : segment_blocks p' [SColumn ci cops] = Ret bl') by (cbn [segment_blocks]; rewrite Eb'; cbn [bind]; rewrite app_nil_r; reflexivity).
      symmetry. eapply builds_blocks; eassumption. }
    exists e, e', bl. split; [exact Ee|]. split; [exact Ee'|]. split; [exact Eb|]. split; [exact Eb'|]. cbv zeta.
    assert (CUT : forall (sig e bl mo : list BinNums.N), length sig = 13 -> firstn (length bl) (skipn (13 + length e) (sig ++ e ++ bl ++ mo)) = bl).
    { intros sig' x y z HS. rewrite <- HS, <- app_length, app_assoc, skipn_app, skipn_all, Nat.sub_diag. cbn [app skipn].
      rewrite firstn_app, firstn_all, Nat.sub_diag. cbn [firstn]. apply app_nil_r. }
    rewrite E, E', !map_app, !concat_app. split; apply CUT; reflexivity.
Qed.
Print Assumptions C88_order.

(** One order works if the other does. *)
Theorem C88_either_works : forall p info cols cols' it data index,
  Permutation cols cols' -> wrote p info (columns cols) it data index ->
  exists data' index', wrote p info (columns cols') it data' index'.
Proof.
  intros p info cols cols' it data index PE (d & w & base & w1 & sg & w2 & sg2 & rs & M & ID & NW & O & R & A & DD & D).
  destruct (C45_data_file d _ _ _ _ _ _ _ _ _ _ _ M ID NW O R A) as (b & B & _).
  destruct (columns_blocks_perm p _ _ PE _ B) as (b' & B' & _).
  assert (SU : supported (columns cols)).
  { clear - R A. apply seg_run_split in R; [|exact A]. destruct R as (wa & sa & ra & rb & R & A1 & _). clear A. revert w1 sg wa sa ra R A1.
    unfold columns, supported. induction cols as [|[ci cops] cols IH]; intros w1 sg wa sa ra R A1; cbn [map]; constructor.
    - cbn [map seg_run seg_step fst snd] in R. unfold new_binary_column_writer, new_binary_encoder in R. cbn [fst]. destruct (ci_encoding ci); auto;
        cbn [bind] in R; destruct (seg_run p _ _ _) as [[[? ?] ?]|k|]; cbn [bind app] in R; try discriminate; injection R as <- <- <-; apply Forall_cons_iff in A1; destruct A1; discriminate.
    - cbn [map seg_run] in R. destruct (seg_step p w1 sg _) as [[[x y] z]|k|]; cbn [bind] in R; try discriminate.
      destruct (seg_run p x y _) as [[[x2 y2] z2]|k|] eqn:R2; cbn [bind] in R; try discriminate. injection R as <- <- <-. apply Forall_app in A1. eapply IH; [exact R2|apply A1]. }
  assert (SU' : supported (columns cols' ++ [SClose it])).
  { apply Forall_app. split; [|repeat constructor]. unfold supported, columns in *. rewrite Forall_map in *. apply Forall_forall. intros x I.
    rewrite Forall_forall in SU. apply SU. eapply Permutation_in; [apply Permutation_sym, PE|exact I]. }
  assert (O' : orders_ok (columns cols' ++ [SClose it])).
  { apply Forall_app in O. destruct O as [_ O]. apply Forall_app. split; [|exact O]. unfold columns. rewrite Forall_map. apply Forall_forall. intros; exact I. }
  set (w0 := mkworld [] [] 1).
  destruct (C45_no_false_alarm p w0 base info (columns cols' ++ [SClose it]) b') as (x1 & s1 & x2 & s2 & rs' & N1 & R1 & A' & _).
  - cbn. lia.
  - exact ID.
  - constructor.
  - exact SU'.
  - rewrite segment_blocks_app, B'. cbn [bind segment_blocks]. rewrite app_nil_r. reflexivity.
  - assert (M0 : 0 < wd_max w0) by (cbn; lia).
    destruct (closed_files (fun _ => None) _ _ _ _ _ _ _ _ _ _ _ M0 ID N1 O' R1 A') as (bb & mid & m & _ & _ & _ & _ & _ & X & Y).
    eexists _, _. exists (fun _ => None), w0, base, x1, s1, x2, s2, rs'. do 6 (split; [assumption|]). split; eassumption.
Qed.
Print Assumptions C88_either_works.

(** Columns "a" and "b" in both orders.  Two columns named "a" are another
    matter: the metadata describes the one closed last. *)
Example C88_witness :
  let cols := [(ex_a, [CWrite ex_buf; CClose]); (ex_b, [CWrite ex_buf; CClose])] in
  Permutation cols (rev cols) /\ different_names cols
  /\ match produced Debug ex_world ex_base ex_info (columns cols ++ [SClose id_it]), produced Debug ex_world ex_base ex_info (columns (rev cols) ++ [SClose id_it]) with
     | Some (data, index), Some (data', index') => data' <> data /\ length data = 204 /\ length data' = 204 /\ length index = 107 /\ length index' = 107
     | _, _ => False
     end.
Proof.
  split; [apply Permutation_rev|]. split; [unfold different_names; cbn [map fst ci_name ex_a ex_b]; constructor; [intros [X|[]]; discriminate X|constructor; [intros []|constructor]]|].
  vm_compute. repeat split. discriminate.
Qed.

Example C88_same_name :
  let cols := [(ex_a, [CWrite ex_buf; CClose]); (ex_a2, [CClose])] in
  match produced Debug ex_world ex_base ex_info (columns cols ++ [SClose id_it]), produced Debug ex_world ex_base ex_info (columns (rev cols) ++ [SClose id_it]) with
  | Some (_, index), Some (_, index') =>
      match read_index_file index, read_index_file index' with
      | Some (mkmeta (Some s) _), Some (mkmeta (Some s') _) =>
          map (fun e => (fst e, cm_nullable (snd e))) (sm_columns_meta s) = [([97]%N, true)] /\ map (fun e => (fst e, cm_nullable (snd e))) (sm_columns_meta s') = [([97]%N, false)]
      | _, _ => False
      end
  | _, _ => False
  end.
Proof. vm_compute. split; reflexivity. Qed.
