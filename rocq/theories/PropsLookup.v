(** C94: finding a row of a column by its number, with the row identifiers of the
    block index. *)
From Verif Require Import Base BaseProofs Spec SpecRows SpecBin Varint VarintProofs Buffers Observe BitmapProofs BuffersProofs
  Rle RleProofs Offsets OffsetsProofs PropsOffsets Sink PrimEnc BinEnc ObserveEnc ReadBlock ReadBinBlock RowsProofs BlockProofs PrimEncProofs PrimRunProofs
  PropsPrim PropsPrimRows PropsPrimIds PropsPrimAny PropsPrimAll PropsPrimAllErr PropsRle BinBlockProofs BinEncProofs BinRunProofs PropsBin PropsBinRows PropsBinExact PropsBinPending
  Io SpecIo IoProofs IoReadProofs PropsIo Metadata SpecProto Names PropsNames Segment SpecSegment SegmentProofs SegmentRunProofs PropsSegment PropsSegmentEx PropsSegmentRef
  PropsReadBack PropsDivision PropsApart.
Open Scope nat_scope.

(** * How a reader would find a row *)

(** Row [r] is in the first block whose identifier is not below [r]; its position
    there is counted from the identifier of the block before ([from] is the first
    row of the first block). *)
Fixpoint find_row (from : N) (ids : list N) (r : N) : option (nat * nat) :=
  match ids with
  | [] => None
  | id :: rest =>
      if (r <=? id)%N then Some (0, N.to_nat (r - from))
      else option_map (fun x => (S (fst x), snd x)) (find_row (id + 1) rest r)
  end.

(** The [pos]-th of the [n] items of a block without validity, following the
    format at binary_enc.rs:14-22. *)
Definition read_item (p : profile) (n pos : nat) (block : list N) : option (list N) :=
  match decode_varint p block with
  | Ret (Ok (size, k)) =>
      match skipn (k + N.to_nat size) block with
      | [] => None
      | width :: rest =>
          let b := N.to_nat width in
          let lens := firstn n (bp_unpack (firstn ((b * n + 7) / 8) rest) b) in
          nth_error (split_items lens (firstn (N.to_nat size) (skipn k block))) pos
      end
  | _ => None
  end.

(** Row [r] of a binary column without nulls. *)
Definition binary_row (p : profile) (blocks : list (N * list N)) (r : N) : option (list N) :=
  match find_row 0 (map fst blocks) r with
  | Some (i, pos) => read_item p (nth i (rows_between 0 (map fst blocks)) 0) pos (snd (nth i blocks (0%N, [])))
  | None => None
  end.

(** Row [r] of a fixed-width column. *)
Definition fixed_row (p : profile) (sz : nat) (nl : bool) (blocks : list (N * list N)) (r : N) : option (option N) :=
  match find_row 0 (map fst blocks) r with
  | Some (i, pos) =>
      match read_primitive_block p sz nl (snd (nth i blocks (0%N, []))) with
      | Ret (Ok rows) => nth_error rows pos
      | _ => None
      end
  | None => None
  end.

(** Row [r] of a binary column without nulls whose first block begins at [first]
    in the data file and whose block index has these row identifiers and
    offsets. *)
Definition file_row (p : profile) (file : list N) (first : N) (ids offsets : list N) (r : N) : option (list N) :=
  match find_row 0 ids r with
  | Some (i, pos) =>
      let range := nth i (block_ranges first offsets) (0, 0)%N in
      match read_block p file [] (fst range) (snd range) with
      | Ret (Ok block) => read_item p (nth i (rows_between 0 ids) 0) pos block
      | _ => None
      end
  | None => None
  end.

(** The rows that belong to each block. *)
Fixpoint split_rows {T} (counts : list nat) (rows : list T) : list (list T) :=
  match counts with [] => [] | n :: rest => firstn n rows :: split_rows rest (skipn n rows) end.

(** * With the right identifiers the right row is found *)

(** Identifiers of blocks of [ws] that begin with row [from]. *)
Definition ids_from {T} (from : N) (ids : list N) (ws : list (list T)) : Prop :=
  length ids = length ws
  /\ forall i id, nth_error ids i = Some id -> (id + 1 = from + N.of_nat (length (concat (firstn (S i) ws))))%N.

Lemma right_from {T} ids (ws : list (list T)) : ids_right ids ws <-> ids_from 0 ids ws.
Proof. unfold ids_right, ids_from. split; intros [L H]; (split; [exact L|]); intros i id E; specialize (H i id E); lia. Qed.

Lemma ids_from_cons {T} from id ids (w : list T) ws : ids_from from (id :: ids) (w :: ws) ->
  (id + 1 = from + N.of_nat (length w))%N /\ ids_from (id + 1) ids ws.
Proof.
  intros [L H]. pose proof (H 0 id eq_refl) as H0. cbn [firstn concat] in H0. rewrite app_nil_r in H0. split; [exact H0|].
  split; [cbn [length] in L; lia|]. intros i id' E. specialize (H (S i) id' E).
  change (firstn (S (S i)) (w :: ws)) with (w :: firstn (S i) ws) in H. cbn [concat] in H. rewrite app_length in H. lia.
Qed.

Lemma find_right {T} : forall (ws : list (list T)) ids from r, ids_from from ids ws -> 
  match find_row from ids (from + N.of_nat r) with
  | Some (i, pos) => exists w, nth_error ws i = Some w /\ nth_error w pos = nth_error (concat ws) r /\ pos < length w /\ r < length (concat ws)
  | None => length (concat ws) <= r
  end.
Proof.
  induction ws as [|w ws IH]; intros [|id ids] from r I; try (destruct I as [L _]; discriminate L); cbn [find_row concat]; [cbn; lia|].
  apply ids_from_cons in I. destruct I as [E I].
  destruct (N.leb_spec (from + N.of_nat r) id) as [Hle|Hlt].
  - assert (P : N.to_nat (from + N.of_nat r - from) = r) by lia. rewrite P.
    assert (L : r < length w) by lia. exists w. split; [reflexivity|]. rewrite nth_error_app1 by exact L. rewrite app_length. split; [reflexivity|lia].
  - assert (G : length w <= r) by lia. specialize (IH ids (id + 1)%N (r - length w) I).
    replace (id + 1 + N.of_nat (r - length w))%N with (from + N.of_nat r)%N in IH by lia.
    destruct (find_row (id + 1) ids (from + N.of_nat r)) as [[i pos]|]; cbn [option_map fst snd].
    + destruct IH as (w' & A & B & C & D). exists w'. split; [exact A|]. rewrite nth_error_app2 by exact G. rewrite app_length. split; [exact B|lia].
    + rewrite app_length. lia.
Qed.

Lemma split_right {T} : forall (ws : list (list T)) ids from, ids_from from ids ws -> Forall (fun w => w <> []) ws ->
  rows_between from ids = map (@length T) ws /\ split_rows (rows_between from ids) (concat ws) = ws.
Proof.
  induction ws as [|w ws IH]; intros [|id ids] from I NE; try (destruct I as [L _]; discriminate L); cbn [rows_between split_rows map concat]; [auto|].
  apply ids_from_cons in I. destruct I as [E I]. apply Forall_cons_iff in NE. destruct NE as [N1 NE]. destruct (IH ids (id + 1)%N I NE) as [A B].
  replace (N.to_nat (id + 1 - from)) with (length w) by lia. rewrite A in *. rewrite firstn_app_exact, skipn_app_exact, B. auto.
Qed.

(** * The blocks of a binary column without nulls hold its rows *)

Lemma cut_rows p B : forall f s pos (rows : list row) items R, full rows -> bin_cut p false f B s pos rows = (items, Held R) ->
  concat (map it_rows items) ++ R = rows.
Proof.
  induction f as [|f IH]; intros s pos rows items R F H; cbn [bin_cut] in H; [discriminate H|].
  destruct (SpecBin.fill B (somes rows)) as [q|]; [|injection H as <- <-; cbn [map concat app]; apply full_trim; exact F].
  destruct (q <=? s); [discriminate H|]. cbn zeta in H.
  destruct (bin_cut p false f B q _ _) as [its en] eqn:EC. cbn [fst snd] in H. injection H as <- ->.
  pose proof (take_drop (q - s) rows) as TD. rewrite <- TD in F. apply full_app in F. destruct F as [_ F].
  apply IH in EC; [|exact F]. cbn [map concat it_rows]. rewrite <- app_assoc, EC. exact TD.
Qed.

Lemma step_rows p B past R b past' items R' : full R -> full b -> bin_step p false B past R b = (past', (items, Held R')) ->
  concat (map it_rows items) ++ R' = R ++ b /\ full R'.
Proof.
  intros FR Fb H.
  assert (E : concat (map it_rows items) ++ R' = R ++ b).
  { unfold bin_step in H. destruct R as [|x R].
    - apply (f_equal snd) in H. cbn [snd] in H. apply cut_rows in H; [exact H|exact Fb].
    - destruct (SpecBin.fill _ (somes b)) as [k|].
      + cbn zeta in H. destruct (bin_cut p false _ B k _ _) as [its en] eqn:EC. cbn [fst snd] in H. injection H as _ <- ->.
        pose proof (take_drop k b) as TD. assert (FD : full (drop_vals k b)) by (rewrite <- TD in Fb; apply full_app in Fb; tauto).
        apply cut_rows in EC; [|exact FD]. cbn [map concat it_rows]. rewrite <- app_assoc, EC.
        cbn [app]. rewrite <- app_assoc, TD. reflexivity.
      + injection H as _ <- <-. cbn [map concat app]. rewrite (full_trim b Fb). reflexivity. }
  split; [exact E|]. assert (F : full (R ++ b)) by (apply full_app; auto). rewrite <- E in F. apply full_app in F. tauto.
Qed.

Lemma run_rows p B : forall rowss past R past' items R', full R -> Forall full rowss ->
  bin_run p false B past R rowss = (past', (items, Held R')) -> concat (map it_rows items) ++ R' = R ++ concat rowss /\ full R'.
Proof.
  induction rowss as [|b rowss IH]; intros past R past' items R' FR FB H; cbn [bin_run concat] in *.
  - injection H as _ <- <-. rewrite app_nil_r. auto.
  - apply Forall_cons_iff in FB. destruct FB as [F1 FB].
    destruct (bin_step p false B past R b) as [past1 [its [R1|k]]] eqn:ES; [|discriminate H].
    apply step_rows in ES; [|exact FR|exact F1]. destruct ES as [E1 FR1].
    destruct (bin_run p false B past1 R1 rowss) as [past2 [its2 e2]] eqn:ER. cbn [fst snd] in H. injection H as _ <- ->.
    apply IH in ER; [|exact FR1|exact FB]. destruct ER as [E2 F2]. split; [|exact F2].
    rewrite map_app, concat_app, <- app_assoc, E2, app_assoc, E1, <- app_assoc. reflexivity.
Qed.

Lemma planned_rows p B rowss items : Forall full rowss -> planned_blocks p false B rowss = (items, None) ->
  concat (map it_rows items) = concat rowss.
Proof.
  unfold planned_blocks. intros F H. destruct (bin_run p false B [] [] rowss) as [past [its [R|k]]] eqn:ER; [|discriminate H].
  apply run_rows in ER; [|constructor|exact F]. destruct ER as [E FR]. cbn [app] in E. rewrite <- E.
  destruct R as [|x R]; injection H as <-; [rewrite app_nil_r; reflexivity|].
  rewrite map_app, concat_app. cbn [map concat it_rows]. rewrite app_nil_r. reflexivity.
Qed.

(** * Reading one item *)

Lemma read_item_back p R extra block pos : 1 <= num_vals R <= 128 -> (N.of_nat (bytes_of R + length extra) < u64_lim)%N ->
  lens_readable (somes R) -> layout p false R extra block ->
  read_item p (num_vals R) pos block = nth_error (somes R) pos.
Proof.
  intros HN HB HR (size & pl & lens & v & E1 & E2 & -> & ->).
  change (length (concat (somes R))) with (bytes_of R) in E1. rewrite put_varint_ok in E1 by exact HB. injection E1 as <-.
  set (ls := map (fun v => N.of_nat (length v)) (somes R)) in *.
  assert (LL : length ls = num_vals R) by (unfold ls; rewrite map_length; reflexivity).
  rewrite off_encode_ok in E2 by (rewrite LL; exact HN). injection E2 as _ <-.
  unfold read_item. cbn [app]. rewrite decode_varint_bytes by exact HB. rewrite Nat2N.id.
  set (a := varint_bytes _). set (packed := firstn _ (bp_pack _ _)). rewrite app_nil_r.
  replace (a ++ concat (somes R) ++ extra ++ N.of_nat (width ls) :: packed) with ((a ++ concat (somes R) ++ extra) ++ N.of_nat (width ls) :: packed)
    by (rewrite <- !app_assoc; reflexivity).
  assert (LA : length a + (bytes_of R + length extra) = length (a ++ concat (somes R) ++ extra)) by (rewrite !app_length; reflexivity).
  rewrite LA, skipn_app_exact. rewrite <- (app_assoc a), skipn_app_exact.
  rewrite Nat2N.id.
  assert (LP : length packed = (width ls * num_vals R + 7) / 8).
  { unfold packed. rewrite firstn_length, bp_pack_length. rewrite LL. fold (nceil8 (width ls * num_vals R)).
    rewrite Nat.min_l; [reflexivity|]. unfold nceil8.
    enough ((width ls * num_vals R + 7) / 8 < 16 * width ls + 1) by lia. apply Nat.div_lt_upper_bound; [lia|]. nia. }
  rewrite <- LP, firstn_all.
  assert (EL : firstn (num_vals R) (bp_unpack packed (width ls)) = ls).
  { destruct HR as (pl' & b & bytes & E1' & E2'). fold ls in E1', E2'. rewrite off_encode_ok in E1' by (rewrite LL; exact HN).
    injection E1' as _ Eb Ey. apply Nat2N.inj in Eb. rewrite <- Eb, <- Ey in E2'. exact E2'. }
  rewrite EL. replace (bytes_of R + length extra) with (length (concat (somes R) ++ extra)) by (rewrite app_length; reflexivity).
  rewrite firstn_app_exact. unfold ls. rewrite split_items_back. reflexivity.
Qed.

(** * Binary columns *)

(** What is needed about the blocks of such a column. *)
Lemma column_lookup p B rowss blocks res : (0 < B)%N -> Forall full rowss ->
  Forall (fun r => B + N.of_nat (length (concat (somes r))) < 2 ^ 32)%N rowss ->
  (N.of_nat (length (concat rowss)) <= 2 ^ 32 - 2)%N ->
  be_column_rows p B false rowss = Ret (blocks, res) ->
  let ids := map fst blocks in
  exists ws extras, concat ws = concat rowss /\ ids_right ids ws
    /\ rows_between 0 ids = map (@length _) ws /\ split_rows (rows_between 0 ids) (concat rowss) = ws
    /\ Forall (fun w => full w /\ w <> []) ws
    /\ Forall2 (fun x block => layout p false (fst x) (snd x) (snd block)) (combine ws extras) blocks /\ length extras = length ws
    /\ Forall (fun x => 1 <= num_vals (fst x) <= 128 /\ (N.of_nat (bytes_of (fst x) + length (snd x)) < u64_lim)%N) (combine ws extras).
Proof.
  intros HB HF HS HL E ids.
  assert (HA : Forall (rows_allowed false) rowss) by (eapply Forall_impl; [|exact HF]; intros r F; right; exact F).
  destruct (C37_row_ids_exact p B false rowss blocks res HB HA HS HL E) as (LY & _ & IR). specialize (IR eq_refl). fold ids in IR.
  assert (HF2 : Forall (fun r => B + N.of_nat (bytes_of r) <= u32_max)%N rowss).
  { change (2 ^ 32)%N with 4294967296%N in HS. eapply Forall_impl; [|exact HS]. unfold u32_max, bytes_of. cbn. intros; lia. }
  pose proof (planned_bounded p B false rowss HB HF2) as BD. rewrite <- planned_is in BD.
  destruct (proj1 (C35_returns_exact p B false rowss HB HA HS HL) (ex_intro _ _ E)) as [[W _] ST].
  pose proof (planned_rows p B rowss (fst (planned_blocks p false B rowss)) HF) as PR.
  destruct (planned_blocks p false B rowss) as [items stop]. cbn [fst snd] in *. subst stop. specialize (PR eq_refl).
  assert (FW : Forall (fun w => full w /\ w <> []) (map it_rows items)).
  { assert (FC : full (concat (map it_rows items))).
    { rewrite PR. clear -HF. induction HF as [|r rowss F _ IH]; [constructor|]. cbn [concat]. apply full_app. auto. }
    apply full_concat in FC. clear -FC BD. unfold bounded in BD. induction items as [|it items IH]; cbn [map] in *; [constructor|].
    apply Forall_cons_iff in BD. destruct BD as [(B1 & _) BD]. apply Forall_cons_iff in FC. destruct FC as [F1 FC].
    constructor; [|auto]. split; [exact F1|]. intros Z. rewrite Z in B1. cbn in B1. lia. }
  assert (CO : combine (map it_rows items) (map it_extra items) = map (fun it => (it_rows it, it_extra it)) items).
  { clear. induction items as [|it items IH]; [reflexivity|]. cbn [map combine]. rewrite IH. reflexivity. }
  exists (map it_rows items), (map it_extra items). split; [exact PR|]. split; [exact IR|].
  destruct (split_right (map it_rows items) ids 0%N) as [S1 S2]; [apply right_from, IR|eapply Forall_impl; [|exact FW]; intros w [_ N]; exact N|].
  split; [exact S1|]. split; [rewrite <- PR; exact S2|]. split; [exact FW|]. rewrite CO, !map_length. split; [|split; [reflexivity|]].
  - clear -LY. induction LY as [|it b items blocks L _ IH]; constructor; assumption.
  - rewrite Forall_map. cbn [fst snd]. clear -BD W. unfold bounded in BD. rewrite Forall_forall in *. intros it I. specialize (BD it I). specialize (W it I).
    destruct BD as (B1 & _ & B3). change u64_lim with 18446744073709551616%N. unfold num_vals in *. cbv beta in *.
    split; [lia|]. clear -B3. revert B3. generalize (bytes_of (it_rows it) + length (it_extra it)). intros n L. lia.
Qed.

(** C94 for binary columns without nulls: a row is in the block and at the
    position that the identifiers say, and its bytes are read from that block, if
    the lengths of the items of that block can be read back (C24 says when); numbers
    from the number of rows on are in no block. *)
Theorem C94_binary_partial :
  forall p B rowss blocks res r,
  (0 < B)%N -> Forall full rowss ->
  Forall (fun b => B + N.of_nat (length (concat (somes b))) < 2 ^ 32)%N rowss ->
  (N.of_nat (length (concat rowss)) <= 2 ^ 32 - 2)%N ->
  be_column_rows p B false rowss = Ret (blocks, res) ->
  let ws := split_rows (rows_between 0 (map fst blocks)) (concat rowss) in
  match nth_error (concat rowss) r with
  | None => find_row 0 (map fst blocks) (N.of_nat r) = None /\ binary_row p blocks (N.of_nat r) = None
  | Some x =>
      exists i pos, find_row 0 (map fst blocks) (N.of_nat r) = Some (i, pos)
        /\ i < length blocks /\ nth_error (nth i ws []) pos = Some x
        /\ (lens_readable (somes (nth i ws [])) -> binary_row p blocks (N.of_nat r) = x)
  end.
Proof.
  intros p B rowss blocks res r HB HF HS HL E ws0.
  destruct (column_lookup p B rowss blocks res HB HF HS HL E) as (ws & extras & C & IR & RB & SR & FW & LY & LE & BD).
  unfold ws0. rewrite SR. clear ws0. unfold binary_row.
  pose proof (find_right ws _ 0%N r (proj1 (right_from _ _) IR)) as FR. rewrite N.add_0_l, C in FR.
  destruct (find_row 0 (map fst blocks) (N.of_nat r)) as [[i pos]|].
  2:{ apply nth_error_None in FR. rewrite FR. auto. }
  destruct FR as (w & W1 & W2 & W3 & W4). rewrite <- W2.
  destruct (nth_error w pos) as [x|] eqn:EX; [|apply nth_error_None in EX; lia].
  assert (NW : nth i ws [] = w) by (apply nth_error_nth, W1).
  assert (LI : i < length ws) by (apply nth_error_Some; rewrite W1; discriminate).
  pose proof (Forall2_len _ _ _ _ _ LY) as LL. rewrite combine_length, LE, Nat.min_id in LL.
  exists i, pos. rewrite NW. split; [reflexivity|]. split; [lia|]. split; [exact EX|]. intros LR.
  assert (NL : nth i (map (@length row) ws) 0 = length w) by (rewrite <- NW; apply (map_nth (@length row) ws [] i)). rewrite RB, NL.
  assert (FUL : full w) by (rewrite Forall_forall in FW; apply (FW w); apply nth_error_In in W1; exact W1).
  assert (IT : exists extra, layout p false w extra (snd (nth i blocks (0%N, [])))
                 /\ 1 <= num_vals w <= 128 /\ (N.of_nat (bytes_of w + length extra) < u64_lim)%N).
  { assert (NC : nth_error (combine ws extras) i = Some (w, nth i extras [])).
    { clear -W1 LE. revert i extras W1 LE. induction ws as [|y ws IH]; intros [|i] [|e es] W1 LE; try discriminate; cbn in *; [congruence|]. apply IH; [exact W1|lia]. }
    exists (nth i extras []). split.
    - clear -LY NC. revert NC. generalize (nth i extras []) as ex. intros ex. revert i. induction LY as [|a b l l' L _ IH]; intros [|i] NC; try discriminate; cbn in *; [injection NC as ->; exact L|apply IH, NC].
    - rewrite Forall_forall in BD. apply nth_error_In in NC. exact (BD _ NC). }
  destruct IT as (extra & LY1 & B1 & B2). rewrite <- (full_length w FUL).
  change (length (somes w)) with (num_vals w). rewrite (read_item_back p w extra _ pos B1 B2 LR LY1).
  clear -FUL EX. revert pos EX. induction FUL as [|y w H _ IH]; intros [|pos] EX; try discriminate; cbn in *;
    destruct y as [y|]; try discriminate; cbn [somes nth_error]; [congruence|apply IH, EX].
Qed.
Print Assumptions C94_binary_partial.

(** Four buffers, the third of them empty, with a block size of 4 bytes: rows 0
    and 1 are in the first block, row 2 in the second, rows 3 and 4 in the third.
    The lengths of the first and of the third cannot be read back. *)
Definition lk_rows : list (list (option (list N))) :=
  [[Some [1; 2; 3]]; [Some [4]]; []; [Some [5; 6; 7; 8]]; [Some [9]; Some []]]%N.
Example C94_binary_witness :
  Forall full lk_rows
  /\ match be_column_rows Debug 4 false lk_rows with
     | Ret (blocks, Ok _) =>
         map fst blocks = [1; 2; 4]%N
         /\ map (fun r => find_row 0 (map fst blocks) r) [0; 1; 2; 3; 4; 5]%N = [Some (0, 0); Some (0, 1); Some (1, 0); Some (2, 0); Some (2, 1); None]
         /\ binary_row Debug blocks 2 = Some [5; 6; 7; 8]%N
     | _ => False end
  /\ lens_readable [[5; 6; 7; 8]]%N.
Proof.
  split; [repeat constructor|]. split; [vm_compute; repeat split|]. eexists _, 3, _. split; vm_compute; reflexivity.
Qed.

(** * In the data file *)

Lemma find_bound : forall ids from r i pos, find_row from ids r = Some (i, pos) -> i < length ids.
Proof.
  induction ids as [|id ids IH]; intros from r i pos H; [discriminate H|]. cbn [find_row] in H. destruct (r <=? id)%N; [injection H as <- _; cbn; lia|].
  destruct (find_row (id + 1) ids r) as [[j q]|] eqn:E; [|discriminate H]. cbn [option_map fst snd] in H. injection H as <- _. apply IH in E. cbn. lia.
Qed.

Lemma file_row_is p file first offsets blocks r : 
  Forall2 (fun range block => reads_as_block file range (snd block)) (block_ranges first offsets) blocks ->
  file_row p file first (map fst blocks) offsets r = binary_row p blocks r.
Proof.
  intros G. unfold file_row, binary_row. destruct (find_row 0 (map fst blocks) r) as [[i pos]|] eqn:E; [|reflexivity].
  apply find_bound in E. rewrite map_length in E. cbn zeta.
  assert (RD : reads_as_block file (nth i (block_ranges first offsets) (0, 0)%N) (snd (nth i blocks (0%N, [])))).
  { revert i E. induction G as [|x b l blocks R G IH]; intros [|i] E; cbn in *; try lia; [exact R|apply IH; lia]. }
  destruct (RD p []) as [-> |[_ []]]. reflexivity.
Qed.

(** C94 in the data file of a closed segment, for a raw column without nulls:
    with the row identifiers and offsets of its block index (which is only in
    memory, see C45) each row is found and read from the file, under the same
    condition. *)
Theorem C94_file_partial : forall d p w base info w1 sg ops ci bufs rowss more it w2 sg2 rs file,
  let cops := map CWrite bufs ++ [CClose] in
  0 < wd_max w -> is_id (si_segment_id info) -> segment_new w base info = (w1, Ok sg) ->
  orders_ok (ops ++ [SColumn ci cops] ++ more ++ [SClose it]) ->
  seg_run p w1 sg (ops ++ [SColumn ci cops] ++ more ++ [SClose it]) = Ret (w2, sg2, rs) -> all_ok rs ->
  directory_after d (wd_log w2) (data_path base (si_segment_id info)) = Some file -> file_ok file ->
  ci_encoding ci = Raw -> ci_nullable ci = false -> bb_fill false rowss = Ret bufs -> Forall full rowss ->
  Forall (fun b => 128 + N.of_nat (length (concat (somes b))) < 2 ^ 32)%N rowss -> (N.of_nat (length (concat rowss)) <= 2 ^ 32 - 2)%N ->
  exists first wi sgi rsi,
    seg_run p w1 sg (ops ++ [SColumn ci cops]) = Ret (wi, sgi, rsi)
    /\ let ids := bi_row_id (sg_block_index sgi) in
       let offsets := bi_offset (sg_block_index sgi) in
       let ws := split_rows (rows_between 0 ids) (concat rowss) in
       forall r,
       match nth_error (concat rowss) r with
       | None => find_row 0 ids (N.of_nat r) = None
       | Some x =>
           exists i pos, find_row 0 ids (N.of_nat r) = Some (i, pos) /\ nth_error (nth i ws []) pos = Some x
             /\ (lens_readable (somes (nth i ws [])) -> file_row p file first ids offsets (N.of_nat r) = x)
       end.
Proof.
  intros d p w base info w1 sg ops ci bufs rowss more it w2 sg2 rs file cops M ID N O H A DF FO RAW NN FILL HA HF HL.
  destruct (C65_read_block d p w base info w1 sg ops ci cops more it w2 sg2 rs file M ID N O H A DF FO)
    as (first & blocks & wi & sgi & rsi & CB & R & IDS & G).
  rewrite <- NN in FILL. unfold cops in CB. rewrite (raw_blocks p ci rowss bufs blocks RAW FILL), NN in CB.
  exists first, wi, sgi, rsi. split; [exact R|]. cbn zeta. rewrite IDS. intros r.
  pose proof (C94_binary_partial p 128 rowss blocks (Ok tt) r ltac:(reflexivity) HA HF HL CB) as X. cbn zeta in X.
  destruct (nth_error (concat rowss) r) as [x|]; [|tauto]. destruct X as (i & pos & X1 & _ & X2 & X3). exists i, pos.
  split; [exact X1|]. split; [exact X2|]. intros LR. rewrite (file_row_is p file first _ blocks _ G). exact (X3 LR).
Qed.
Print Assumptions C94_file_partial.

(** Three rows of 130, 140 and 100 bytes after another column whose only block
    has 6 bytes: three blocks, the first at byte 19. *)
Definition lk_big : list (list (option (list N))) := [[Some (repeat 1%N 130)]; [Some (repeat 2%N 140)]; [Some (repeat 4%N 100)]].
Definition lk_bufs : list bin_buf := match bb_fill false lk_big with Ret b => b | _ => [] end.
Definition lk_ops : list seg_op := rb_ops ++ [SColumn ex_a (map CWrite lk_bufs ++ [CClose])].
Example C94_file_witness :
  bb_fill false lk_big = Ret lk_bufs /\ Forall full lk_big /\ ci_encoding ex_a = Raw /\ ci_nullable ex_a = false
  /\ orders_ok (lk_ops ++ [SColumn ex_a2 [CClose]] ++ [SClose ex_it])
  /\ match run_from Debug ex_world ex_base ex_info (lk_ops ++ [SColumn ex_a2 [CClose]] ++ [SClose ex_it]),
           run_from Debug ex_world ex_base ex_info lk_ops with
     | Some (w2, _, rs), Some (_, sgi, _) =>
         all_ok rs /\ bi_row_id (sg_block_index sgi) = [0; 1; 2]%N
         /\ match directory_after (fun _ => None) (wd_log w2) (data_path ex_base (si_segment_id ex_info)) with
            | Some file =>
                file_ok file
                /\ map (file_row Debug file 19 (bi_row_id (sg_block_index sgi)) (bi_offset (sg_block_index sgi))) [0; 1; 2; 3]%N
                  = [Some (repeat 1%N 130); Some (repeat 2%N 140); Some (repeat 4%N 100); None]
            | None => False end
     | _, _ => False end.
Proof.
  split; [vm_compute; reflexivity|]. split; [repeat constructor|]. split; [reflexivity|]. split; [reflexivity|].
  split; [unfold orders_ok, lk_ops, rb_ops; cbn [app]; do 3 (apply Forall_cons; [exact I|]); apply Forall_cons; [|apply Forall_nil];
          split; intros l; cbn; try apply Permutation.Permutation_rev; apply Permutation.Permutation_refl|].
  vm_compute. repeat (split; [repeat constructor|]). reflexivity.
Qed.

(** * Fixed-width columns *)

Lemma fixed_right p sz nl written ws r : reads_blocks p sz nl written ws -> ids_right (map fst written) ws ->
  fixed_row p sz nl written (N.of_nat r) = nth_error (concat ws) r.
Proof.
  intros RB IR. pose proof (find_right ws _ 0%N r (proj1 (right_from _ _) IR)) as FR. rewrite N.add_0_l in FR. unfold fixed_row.
  destruct (find_row 0 (map fst written) (N.of_nat r)) as [[i pos]|] eqn:E; [|symmetry; apply nth_error_None; exact FR].
  destruct FR as (w & W1 & W2 & _). apply find_bound in E. rewrite map_length in E.
  assert (RD : read_primitive_block p sz nl (snd (nth i written (0%N, []))) = Ret (Ok w)).
  { unfold reads_blocks in RB. clear -RB W1 E. revert i ws RB W1 E.
    induction written as [|b written IH]; intros [|i] [|y ws] RB W1 E; try discriminate; cbn [length] in E; try lia; cbn [map nth nth_error] in *.
    - injection RB as RB _. injection W1 as ->. exact RB.
    - injection RB as _ RB. apply (IH i ws RB W1). lia. }
  rewrite RD. exact W2.
Qed.

(** C94 for fixed-width columns.  What is found are the rows of the blocks, in
    order, if nulls are not allowed or the identifiers are right (C30 says when);
    so every row is found exactly if no row was lost (C29 says when). *)
Theorem C94_fixed_partial :
  forall p sz B cap nl bufs rowss written res,
  0 < sz -> (N.of_nat sz < 2 ^ 31)%N -> (0 < B < 2 ^ 32)%N ->
  (B <= N.of_nat (cap * sz) < B + N.of_nat sz)%N ->
  Forall2 (fun b rows => pb_holds b nl rows) bufs rowss ->
  (total_rows rowss <= 2 ^ 32 - 8)%N -> Forall (fit sz) rowss ->
  pe_column p sz B nl bufs = Ret (written, res) ->
  exists ws, reads_blocks p sz nl written ws
    /\ (nl = false \/ ids_right (map fst written) ws ->
          (forall r, fixed_row p sz nl written (N.of_nat r) = nth_error (concat ws) r)
          /\ ((forall r, fixed_row p sz nl written (N.of_nat r) = nth_error (concat rowss) r) <-> concat ws = concat rowss)).
Proof.
  intros p sz B cap nl bufs rowss written res Hs Hz HB HF HH HT HV E.
  destruct (C30_every_column_exact p sz B cap nl bufs rowss written res Hs Hz HB HF HH HT HV E) as (blocks & _ & RB & _ & NN).
  exists (map snd blocks). split; [exact RB|]. intros C.
  assert (IR : ids_right (map fst written) (map snd blocks)) by (destruct C as [C|C]; auto).
  assert (F : forall r, fixed_row p sz nl written (N.of_nat r) = nth_error (concat (map snd blocks)) r) by (intros r; apply fixed_right; assumption).
  split; [exact F|]. split.
  - intros G. assert (K : forall r, nth_error (concat (map snd blocks)) r = nth_error (concat rowss) r) by (intros r; rewrite <- F; apply G).
    clear -K. revert K. generalize (concat (map snd blocks)) as a, (concat rowss) as b. induction a as [|x a IH]; intros [|y b] K; try reflexivity.
    + specialize (K 0). discriminate K.
    + specialize (K 0). discriminate K.
    + pose proof (K 0) as K0. injection K0 as ->. f_equal. apply IH. intros r. exact (K (S r)).
  - intros G r. rewrite <- G. apply F.
Qed.
Print Assumptions C94_fixed_partial.

(** Values of one byte without nulls are never lost (C29), so every row is
    found, and no other. *)
Theorem C94_one_byte_partial :
  forall p B bufs rowss,
  (0 < B < 2 ^ 32)%N ->
  Forall2 (fun b rows => pb_holds b false rows) bufs rowss ->
  (total_rows rowss <= 2 ^ 32 - 8)%N -> Forall (fit 1) rowss ->
  exists written, pe_column p 1 B false bufs = Ret (written, Ok tt)
    /\ forall r, fixed_row p 1 false written (N.of_nat r) = nth_error (concat rowss) r.
Proof.
  intros p B bufs rowss HB HH HT HV. destruct (C29_one_byte p B bufs rowss HB HH HT HV) as (written & ws & last & E & RB & IR & C & _).
  exists written. split; [exact E|]. intros r. rewrite (fixed_right p 1 false written _ r RB IR), <- C. f_equal.
  unfold with_held. destruct last as [|x last]; [rewrite !app_nil_r; reflexivity|]. rewrite concat_app. cbn [concat]. rewrite app_nil_r. reflexivity.
Qed.
Print Assumptions C94_one_byte_partial.

Example C94_one_byte_witness :
  match pe_column_rows Release 1 2 false [[Some 1]; [Some 2; Some 3; Some 4; Some 5]; []; [Some 6; Some 7]]%N with
  | Ret (written, Ok _) => map (fixed_row Release 1 false written) [0; 1; 2; 3; 4; 5; 6; 7]%N
      = [Some (Some 1); Some (Some 2); Some (Some 3); Some (Some 4); Some (Some 5); Some (Some 6); Some (Some 7); None]%N
  | _ => False end.
Proof. vm_compute. reflexivity. Qed.

(** * The identifiers can be searched *)

(** Every identifier is larger than the one before. *)
Fixpoint ascending (from : N) (ids : list N) : Prop :=
  match ids with [] => True | id :: rest => (from <= id)%N /\ ascending (id + 1) rest end.

Lemma row_ids_ascending : forall counts from, Forall (fun n => 0 < n) counts -> ascending from (row_ids from counts).
Proof.
  induction counts as [|n counts IH]; intros from F; [exact I|]. apply Forall_cons_iff in F. destruct F as [P F]. cbn [row_ids ascending]. split; [lia|].
  replace (from + N.of_nat n - 1 + 1)%N with (from + N.of_nat n)%N by lia. apply IH, F.
Qed.

(** This holds for every column, with nulls or not. *)
Theorem C94_binary_ascending :
  forall p B nl rowss blocks res,
  (0 < B)%N -> Forall (rows_allowed nl) rowss ->
  Forall (fun r => B + N.of_nat (length (concat (somes r))) < 2 ^ 32)%N rowss ->
  (N.of_nat (length (concat rowss)) <= 2 ^ 32 - 2)%N ->
  be_column_rows p B nl rowss = Ret (blocks, res) -> ascending 0 (map fst blocks).
Proof.
  intros p B nl rowss blocks res HB HA HF HL E.
  assert (HF2 : Forall (fun r => B + N.of_nat (bytes_of r) <= u32_max)%N rowss).
  { change (2 ^ 32)%N with 4294967296%N in HF. eapply Forall_impl; [|exact HF]. unfold u32_max, bytes_of. cbn. intros; lia. }
  pose proof (planned_bounded p B nl rowss HB HF2) as BD. rewrite <- planned_is in BD.
  pose proof (planned_counts p nl B rowss) as CO.
  destruct (proj1 (C35_returns_exact p B nl rowss HB HA HF HL) (ex_intro _ _ E)) as [W ST].
  pose proof (C34_column_exact p B nl rowss HB HA HF HL) as X.
  destruct (planned_blocks p nl B rowss) as [items stop]. cbn [fst snd] in *. subst stop.
  destruct X as (X & _). destruct (X W eq_refl) as (bl & E' & IDS & _). rewrite E in E'. injection E' as <- _. rewrite IDS. clear -BD CO.
  generalize 0%N as from. unfold bounded in BD. revert BD CO.
  induction items as [|it items IH]; intros BD CO from; [exact I|]. apply Forall_cons_iff in BD, CO. destruct BD as [(B1 & _) BD], CO as [[C1 _] CO].
  cbn [PropsBinExact.counted ascending]. pose proof (somes_length_le (it_rows it)) as SL. unfold num_vals in *.
  split; [lia|]. replace (from + N.of_nat (it_count it) - 1 + 1)%N with (from + N.of_nat (it_count it))%N by lia. apply IH; assumption.
Qed.
Print Assumptions C94_binary_ascending.

Theorem C94_fixed_ascending :
  forall p sz B cap nl bufs rowss written res,
  0 < sz -> (N.of_nat sz < 2 ^ 31)%N -> (0 < B < 2 ^ 32)%N ->
  (B <= N.of_nat (cap * sz) < B + N.of_nat sz)%N ->
  Forall2 (fun b rows => pb_holds b nl rows) bufs rowss ->
  (total_rows rowss <= 2 ^ 32 - 8)%N -> Forall (fit sz) rowss ->
  pe_column p sz B nl bufs = Ret (written, res) -> ascending 0 (map fst written).
Proof.
  intros p sz B cap nl bufs rowss written res Hs Hz HB HF HH HT HV E.
  assert (Hc : 0 < cap) by (destruct HF; destruct cap; cbn in *; lia).
  pose proof (C29_every_column_exact p sz B cap nl bufs rowss Hs Hz HB HF HH HT HV) as X. cbn zeta in X.
  destruct (col_all_pos nl (checks p) sz B cap Hc rowss [] [] ltac:(left; reflexivity)) as [P1 _].
  destruct (snd (col_all nl (checks p) sz B cap [] [] rowss)) as [[past held]|]; [|destruct (_ <=? u32_max)%N; rewrite X in E; discriminate].
  destruct (_ <=? u32_max)%N; [|rewrite X in E; discriminate]. destruct X as (written' & E' & IDS & _).
  rewrite E' in E. injection E as -> _. rewrite IDS. apply row_ids_ascending. rewrite Forall_map. apply Forall_app. split; [exact P1|].
  destruct (seen nl past held); [constructor|]. constructor; [cbn; lia|constructor].
Qed.
Print Assumptions C94_fixed_ascending.

(** So a search that looks at any identifier and goes on to the left or to the
    right of it finds the same block. *)
Theorem C94_search : forall ids r i pos, ascending 0 ids -> find_row 0 ids r = Some (i, pos) ->
  forall j, j < length ids -> (r <= nth j ids 0)%N <-> i <= j.
Proof.
  intros ids r i pos. enough (X : forall i pos from, ascending from ids -> find_row from ids r = Some (i, pos) -> forall j, j < length ids -> (r <= nth j ids 0)%N <-> i <= j) by apply X. clear i pos.
  induction ids as [|id ids IH]; intros i pos from A F j L; [discriminate F|]. destruct A as [A1 A2]. cbn [find_row] in F.
  destruct (N.leb_spec r id) as [R|R].
  - injection F as <- _. split; [lia|]. intros _. destruct j as [|j]; [exact R|]. cbn [nth length] in *.
    assert (G : forall ids from j, ascending from ids -> j < length ids -> (from <= nth j ids 0)%N).
    { clear. induction ids as [|y ids IH]; intros from [|j] A L; cbn in *; try lia. destruct A as [A1 A2]. specialize (IH _ j A2 ltac:(lia)). lia. }
    specialize (G ids _ j A2 ltac:(lia)). lia.
  - destruct (find_row (id + 1) ids r) as [[k q]|] eqn:E; [|discriminate F]. cbn [option_map fst snd] in F. injection F as <- _.
    destruct j as [|j]; cbn [nth]; [split; lia|]. cbn [length] in L. rewrite (IH k q _ A2 E j ltac:(lia)). lia.
Qed.
Print Assumptions C94_search.

Example C94_search_witness : ascending 0 [1; 2; 4]%N /\ find_row 0 [1; 2; 4]%N 3 = Some (2, 0) /\ ~ ascending 0 [1; 1; 4]%N.
Proof. cbn. repeat split; try lia. Qed.

(** * Not in general *)

(** A row of a fixed-width column that could be written is found by its number,
    if no buffer ends with a null. *)
Definition C94_fixed_statement : Prop :=
  forall p sz B nl rowss written r,
    0 < sz -> (0 < B < 2 ^ 32)%N -> Forall (fit sz) rowss -> Forall ends_some rowss ->
    pe_column_rows p sz B nl rowss = Ret (written, Ok tt) -> r < length (concat rowss) ->
    fixed_row p sz nl written (N.of_nat r) = nth_error (concat rowss) r.

(** Seven values in one buffer of a nullable column, two in a block.  None is
    lost, but the blocks have the identifiers 1, 5, 11 and 12 and not 1, 3, 5 and
    6: rows 4 and 5 are looked for in the second block, which has only two rows,
    and for row 6 the value of row 4 is found. *)
Definition lk_seven : list (list (option N)) := [[Some 1; Some 2; Some 3; Some 4; Some 5; Some 6; Some 7]]%N.

Theorem C94_nullable_refuted :
  ~ C94_fixed_statement
  /\ match pe_column_rows Debug 8 16 true lk_seven with
     | Ret (written, Ok _) =>
         map fst written = [1; 5; 11; 12]%N
         /\ reads_blocks Debug 8 true written [[Some 1; Some 2]; [Some 3; Some 4]; [Some 5; Some 6]; [Some 7]]%N
         /\ map (fixed_row Debug 8 true written) [3; 4; 5; 6]%N = [Some (Some 4%N); None; None; Some (Some 5%N)]
     | _ => False end.
Proof.
  split; [|vm_compute; repeat split]. intros H.
  destruct (pe_column_rows Debug 8 16 true lk_seven) as [[written [[]|]]| |] eqn:E; pose proof E as E0; vm_compute in E; try discriminate E.
  injection E as <-.
  specialize (H Debug 8 16%N true lk_seven _ 6 ltac:(lia) ltac:(split; reflexivity) ltac:(repeat constructor)
    ltac:(apply Forall_cons; [right; exists [Some 1; Some 2; Some 3; Some 4; Some 5; Some 6]%N, 7%N; reflexivity|apply Forall_nil]) E0 ltac:(cbn; lia)).
  vm_compute in H. discriminate H.
Qed.
Print Assumptions C94_nullable_refuted.

(** The same for binary columns: five rows in blocks with the identifiers 0, 4
    and 5 and with one row, three rows and one row: row 4 is looked for in the
    second block, at a position it does not have. *)
Theorem C94_binary_nullable_refuted :
  match be_column_rows Release 4 true [[Some [1; 1; 1; 1]; Some [2]; Some [3]; Some [4]; Some [5]]]%N with
  | Ret (blocks, Ok _) =>
      find_row 0 (map fst blocks) 4 = Some (1, 3)
      /\ map (fun it => length (it_rows it)) (fst (planned_blocks Release true 4 [[Some [1; 1; 1; 1]; Some [2]; Some [3]; Some [4]; Some [5]]]%N)) = [1; 3; 1]
  | _ => False end.
Proof. vm_compute. repeat split. Qed.
Print Assumptions C94_binary_nullable_refuted.
