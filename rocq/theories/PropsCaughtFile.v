(** Property C107: what is in the files of a closed segment, whatever panicked
    (segment_writer.rs, raw/binary_enc.rs). *)
From Verif Require Import Base BaseProofs Spec SpecRows SpecBin SpecFail Varint Buffers Observe BuffersProofs Sink PrimEnc BinEnc ReadBlock ReadBinBlock ObserveEnc RowsProofs
  BlockProofs BinBlockProofs BinEncProofs BinRunProofs PropsBinFail Io SpecIo Metadata Proto SpecProto Names PropsNames Segment SpecSegment SegmentProofs SegmentRunProofs
  PropsSegment PropsSegmentEx PropsIndexErr Cancel PropsCancel PropsCancelCol Caught PropsCaughtBuf PropsCaughtEnc PropsCaughtSeg PropsCaughtBin.
From Coq Require Import Permutation.
Open Scope nat_scope.

(** * A sink that takes everything *)

Lemma offer_all nl items : forall rows acc,
  offer_items scripted nl rows items ([], acc) = let '(rows', s, out) := offer_items collect nl rows items acc in (rows', ([], s), out).
Proof.
  induction items as [|it items IH]; intros rows acc; cbn [offer_items]; [reflexivity|]. cbn zeta. destruct (128 <? _); [reflexivity|]. destruct (_ <=? _)%N; [|reflexivity].
  unfold scripted at 1. cbn [fst snd tl collect]. apply IH.
Qed.

Lemma finish_all nl past rows acc c :
  finish_items scripted nl past rows ([], acc) c = let '(st, s, out) := finish_items collect nl past rows acc c in (st, ([], s), out).
Proof.
  unfold finish_items. rewrite offer_all. destruct (offer_items collect nl rows (fst c) acc) as [[rows' s] out]. destruct (good out); [|reflexivity]. destruct (snd c); reflexivity.
Qed.

Lemma call_all p nl B st acc c :
  items_call scripted p nl B st ([], acc) c = let '(st', s, out) := items_call collect p nl B st acc c in (st', ([], s), out).
Proof.
  destruct c as [b|]; cbn [items_call].
  - destruct (bs_held st) as [|x R]; [apply finish_all|]. destruct (bin_room p B (x :: R) b) as [|k|]; [reflexivity| |reflexivity]. cbn zeta. rewrite offer_all.
    destruct (offer_items collect _ _ _ _) as [[rows s] out]. destruct (good out); [apply finish_all|reflexivity].
  - rewrite offer_all. destruct (offer_items collect _ _ _ _) as [[rows s] out]. try reflexivity; destruct (good out); reflexivity.
Qed.

Lemma calls_all p nl B cs : forall st acc,
  items_calls scripted p nl B st ([], acc) cs = let '(st', s, outs) := items_calls collect p nl B st acc cs in (st', ([], s), outs).
Proof.
  induction cs as [|c cs IH]; intros st acc; cbn [items_calls]; [reflexivity|]. rewrite call_all. destruct (items_call collect p nl B st acc c) as [[st1 s1] out].
  rewrite IH. destruct (items_calls collect p nl B st1 s1 cs) as [[st2 s2] outs]. reflexivity.
Qed.

(** * A column by itself *)

Lemma anyway_app {S} (wr : sink_fn S) p a : forall x c,
  enc_anyway wr p x (a ++ [c]) = let r := enc_anyway wr p x a in let f := enc_step wr p (fst r) c in (fst f, snd r ++ [snd f]).
Proof.
  induction a as [|b a IH]; intros x c; cbn [app enc_anyway fst snd]; [reflexivity|]. cbn zeta. rewrite IH. reflexivity.
Qed.

Lemma alone_is p bufs : forall e acc, alone_run p (RawEnc e) (map CWrite bufs ++ [CClose]) acc
  = let x := enc_anyway collect p (e, acc) (map Encode bufs ++ [Flush]) in (snd (fst x), snd x).
Proof.
  induction bufs as [|b bufs IH]; intros e acc; cbn [map app alone_run enc_anyway alone_step enc_step bin_encode_at bin_flush_at fst snd].
  - destruct (be_flush_at collect p e acc) as [[e1 s1] [[[]|]|k|]]; reflexivity.
  - rewrite IH. cbn [fst snd]. destruct (be_encode_at collect p (length (bb_offsets b)) e b acc) as [[e1 s1] out]. reflexivity.
Qed.

(** The blocks [l] of a column that was given the buffers with the rows [bs] and
    then closed, where the calls ended as in [outs]: numbered by rows of their own,
    they have the values of the calls, all of one that returned and a first part of
    one that did not.  If the close did not return, the last of them are missing:
    more than 128 values, or more rows than could be counted. *)
Definition column_content (bs : list (list row)) (outs : list (outcome (result unit))) (l : list (N * bin_item)) : Prop :=
  exists writes close vals held total, outs = writes ++ [close]
    /\ took bs writes vals
    /\ concat (map (fun a => somes (it_rows (snd a))) l) ++ held = vals
    /\ spaced 0 l total
    /\ (close = Ret (Ok tt) /\ held = []
        \/ close = Panic PAssert /\ 128 < length held
        \/ close = Panic PExpect /\ (2 ^ 32 <= total + N.of_nat (length (concat bs)))%N).

Lemma items_calls_app {S} (wr : sink_fn S) p nl B c cs : forall st s, items_calls wr p nl B st s (cs ++ [c])
  = let '(st, s, outs) := items_calls wr p nl B st s cs in let '(st, s, out) := items_call wr p nl B st s c in (st, s, outs ++ [out]).
Proof.
  induction cs as [|a cs IH]; intros st s; cbn [app items_calls].
  - destruct (items_call wr p nl B st s c) as [[st1 s1] out]. reflexivity.
  - destruct (items_call wr p nl B st s a) as [[st1 s1] out]. rewrite IH. destruct (items_calls wr p nl B st1 s1 cs) as [[st2 s2] outs].
    destruct (items_call wr p nl B st2 s2 c) as [[st3 s3] out3]. reflexivity.
Qed.

Lemma column_has p ci bufs bs : ci_encoding ci = Raw -> Forall2 (fun buf b => bb_holds buf (ci_nullable ci) b) bufs bs ->
  (N.of_nat (length (concat bs)) <= 2 ^ 32 - 2)%N -> (N.of_nat (bytes_of (concat bs)) < 2 ^ 32 - 1)%N ->
  exists l, fst (column_alone p (ci, map CWrite bufs ++ [CClose])) = written (ci_nullable ci) l
    /\ column_content bs (snd (column_alone p (ci, map CWrite bufs ++ [CClose]))) l
    /\ sound_blocks (ci_nullable ci) (length (concat bs)) (bytes_of (concat bs)) l.
Proof.
  intros HR HH HL HB. unfold column_alone. cbn [fst snd]. rewrite HR. cbn [new_binary_encoder]. set (nl := ci_nullable ci) in *. clearbody nl. clear HR ci.
  rewrite alone_is. cbn zeta. cbn [fst snd].
  assert (HG0 : Forall2 (brings_rows nl) (map Encode bufs) (map Some bs)).
  { clear -HH. induction HH as [|buf b bufs bs H HH IH]; cbn [map]; constructor; [exact H|exact IH]. }
  assert (HG : Forall2 (brings_rows nl) (map Encode bufs ++ [Flush]) (map Some bs ++ [None])) by (apply Forall2_app; [exact HG0|repeat constructor]).
  assert (CR0 : calls_rows (map Some bs) = concat bs) by (unfold calls_rows; rewrite map_map; cbn [call_rows]; rewrite map_id; reflexivity).
  assert (CR : calls_rows (map Some bs ++ [None]) = concat bs) by (unfold calls_rows in *; rewrite map_app, concat_app, CR0; cbn [call_rows map concat]; apply app_nil_r).
  pose proof (C106_exact _ collect p 128 nl _ _ [] ltac:(split; reflexivity) HG ltac:(rewrite CR; exact HL) ltac:(rewrite CR; exact HB)) as X.
  pose proof (items_run collect p 128 nl _ _ ltac:(unfold u32_max; lia) HG0 (be_new 128 nl) (mk_bs [] [] 0) [] (be_inv_new 128 nl)) as Y.
  cbn [bs_held length Nat.add] in Y. change (bytes_of (@nil row)) with 0 in Y. rewrite CR0 in Y. specialize (Y HL HB).
  pose proof (calls_got p nl 128 bs (mk_bs [] [] 0) [] [] (or_introl eq_refl)) as Z. rewrite calls_all in Z.
  cbn zeta in X. rewrite items_calls_app in X.
  destruct (items_calls collect p nl 128 (mk_bs [] [] 0) [] (map Some bs)) as [[st s1] outs]. destruct Y as (_ & _ & _ & LH & _).
  destruct Z as (HE & l & ts & E & SP & V & T & K). cbn [bs_held bs_rows somes app snd] in *. subst s1.
  pose proof (held_offered nl (bs_past st) (bs_held st) (bs_rows st) [] (written nl l) HE) as (last & rows' & f' & out & EO & SP2 & O & SO & _).
  cbn [items_call] in X. rewrite offer_all in EO.
  assert (WHY : forall rows s, good (snd (offer_items collect nl rows (held_item nl (bs_past st) (bs_held st)) s)) = false ->
     snd (offer_items collect nl rows (held_item nl (bs_past st) (bs_held st)) s) = Panic PAssert /\ 128 < num_vals (bs_held st)
     \/ snd (offer_items collect nl rows (held_item nl (bs_past st) (bs_held st)) s) = Panic PExpect /\ (4294967296 <= rows + N.of_nat (length (bs_held st)))%N).
  { clear -HE. intros rows s. destruct (bs_held st) as [|x R0] eqn:EH; [discriminate|]. rewrite <- EH in *. clear EH. destruct (bs_held st) as [|y R]; [discriminate|].
    set (R1 := y :: R) in *. change (held_item nl (bs_past st) R1) with [mk_item (length (seen nl (bs_past st) R1)) (seen nl (bs_past st) R1) []]. clearbody R1. clear x R0 y R.
    destruct (seen_spec nl (bs_past st) R1 HE) as (S1 & _ & S2 & _). cbn [offer_items it_rows it_count]. cbn zeta.
    assert (NV : num_vals (seen nl (bs_past st) R1) = num_vals R1) by (unfold num_vals; rewrite S1; reflexivity). rewrite NV.
    destruct (Nat.ltb_spec 128 (num_vals R1)); [left; auto|]. destruct (N.leb_spec (rows + N.of_nat (length (seen nl (bs_past st) R1))) 4294967295); [discriminate|].
    intros _. right. split; [reflexivity|]. cbn [snd]. lia. }
  specialize (WHY (bs_rows st) (written nl l)).
  destruct (offer_items collect nl (bs_rows st) (held_item nl (bs_past st) (bs_held st)) (written nl l)) as [[rows2 s2] out2]. injection EO as -> _ -> ->. cbn [snd] in WHY.
  destruct X as (-> & -> & _).
  exists (l ++ last). split; [rewrite written_app; reflexivity|]. apply and_comm. split.
  { assert (HA : Forall (rows_allowed nl) bs) by (clear -HH; induction HH as [|buf b bufs bs H HH IH]; constructor; [eapply bb_holds_allowed; exact H|exact IH]).
    destruct (K (length (concat bs)) (bytes_of (concat bs))) as [K1 K2]; [destruct nl; [left; reflexivity|right; constructor]|exact HA|cbn [length]; lia|change (bytes_of (@nil row)) with 0; lia|].
    apply Forall_app. split; [exact K1|exact (SO _ _ K2)]. }
  exists outs, out, ts, (if good out then [] else somes (bs_held st)), rows'. split; [reflexivity|]. split; [exact T|].
  fold (got_values (l ++ last)). rewrite got_app, <- app_assoc, <- V.
  destruct O as [[-> G]|[G ->]].
  - cbn [good]. rewrite G, app_nil_r. split; [reflexivity|]. split; [eapply spaced_app; eassumption|]. left. auto.
  - rewrite G. split; [reflexivity|]. split; [eapply spaced_app; eassumption|]. right. specialize (WHY G). cbn [spaced] in SP2. change (2 ^ 32)%N with 4294967296%N.
    destruct WHY as [[-> W]|[-> W]]; [left; split; [reflexivity|exact W]|right; split; [reflexivity|]]. lia.
Qed.

(** * A segment *)

(** A raw column, its buffers, and their rows, within the limits of C34. *)
Definition column_given (c : column_info * list bin_buf) (bs : list (list row)) : Prop :=
  ci_encoding (fst c) = Raw /\ Forall2 (fun buf b => bb_holds buf (ci_nullable (fst c)) b) (snd c) bs
  /\ (N.of_nat (length (concat bs)) <= 2 ^ 32 - 2)%N /\ (N.of_nat (bytes_of (concat bs)) < 2 ^ 32 - 1)%N.

(** All its buffers are written, then it is closed. *)
Definition column_calls (c : column_info * list bin_buf) : column_info * list col_op := (fst c, map CWrite (snd c) ++ [CClose]).

(** The columns whose last call, the close, returned. *)
Fixpoint closed_well (cols : list (column_info * list bin_buf)) (outs : list (list (outcome (result unit)))) : list column_info :=
  match cols, outs with
  | c :: cols, o :: outs => match last o NoFuel with Ret (Ok _) => fst c :: closed_well cols outs | _ => closed_well cols outs end
  | _, _ => []
  end.

(** The columns of a segment, one after the other: rows, ends of calls, blocks. *)
Inductive contents : list (column_info * list bin_buf) -> list (list (list row)) -> list (list (outcome (result unit))) -> list (bool * list (N * bin_item)) -> Prop :=
| contents_nil : contents [] [] [] []
| contents_cons c bs o l cols rows outs blocks : column_content bs o l -> contents cols rows outs blocks ->
    contents (c :: cols) (bs :: rows) (o :: outs) ((ci_nullable (fst c), l) :: blocks).

Lemma columns_have p cols rows : Forall2 column_given cols rows ->
  exists blocks, contents cols rows (map (fun c => snd (column_alone p c)) (map column_calls cols)) blocks
    /\ Forall2 (fun bs b => sound_blocks (fst b) (length (concat bs)) (bytes_of (concat bs)) (snd b)) rows blocks
    /\ blocks_of_columns p (map column_calls cols) = concat (map (fun b => written (fst b) (snd b)) blocks).
Proof.
  induction 1 as [|c bs cols rows (H1 & H2 & H3 & H4) HF IH]; [exists []; split; [constructor|split; [constructor|reflexivity]]|].
  destruct (column_has p (fst c) (snd c) bs H1 H2 H3 H4) as (l & E & C & SB). destruct IH as (blocks & CC & SS & EE).
  exists ((ci_nullable (fst c), l) :: blocks). cbn [map]. split; [constructor; [exact C|exact CC]|]. split; [constructor; [exact SB|exact SS]|].
  unfold blocks_of_columns in *. cbn [map concat fst snd]. rewrite EE. unfold column_calls at 1. rewrite E. reflexivity.
Qed.

Lemma closes_well p cols rows : Forall2 column_given cols rows ->
  closed_anyway p (map column_calls cols) = closed_well cols (map (fun c => snd (column_alone p c)) (map column_calls cols)).
Proof.
  unfold closed_anyway. induction 1 as [|c bs cols rows (H1 & H2 & H3 & H4) HF IH]; [reflexivity|]. cbn [map concat closed_well]. rewrite IH. clear IH.
  destruct (column_has p (fst c) (snd c) bs H1 H2 H3 H4) as (l & _ & (writes & close & vals & held & total & E & T & _) & _). change (column_calls c) with (fst c, map CWrite (snd c) ++ [CClose]). rewrite E. cbn [fst snd].
  rewrite last_last.
  assert (G : returned_closes (fst c) (map CWrite (snd c) ++ [CClose]) (writes ++ [close]) = match close with Ret (Ok _) => [fst c] | _ => [] end).
  { clear -H2 T. revert writes vals T. induction H2 as [|buf b bufs bs H H2 IH]; intros writes vals T; inversion T; subst; cbn [map app returned_closes].
    - destruct close as [[[]|]|k|]; reflexivity.
    - eapply IH. eassumption. }
  rewrite G. destruct close as [[[]|]|k|]; reflexivity.
Qed.

Lemma data_file d p w base info w1 sg cols rows w2 sg2 outs it w3 sg3 :
  0 < wd_max w -> is_id (si_segment_id info) -> segment_new w base info = (w1, Ok sg) ->
  Forall2 column_given cols rows ->
  caught_columns p w1 sg (map column_calls cols) = (w2, sg2, outs) -> Forall none_reported outs ->
  (forall l, Permutation l (it_columns it l)) /\ (forall l, Permutation l (it_layouts it l)) -> segment_close w2 sg2 it = (w3, sg3, Ok tt) ->
  outs = map (fun c => snd (column_alone p c)) (map column_calls cols)
  /\ exists blocks, contents cols rows outs blocks
     /\ Forall2 (fun bs b => sound_blocks (fst b) (length (concat bs)) (bytes_of (concat bs)) (snd b)) rows blocks
     /\ directory_after d (wd_log w3) (data_path base (si_segment_id info))
        = Some ([77; 69; 69; 82; 75; 65; 84; 95; 68; 65; 84; 65; 49]%N
                ++ concat (map (fun c => concat (map (fun a => bin_block (fst c) (it_rows (snd a)) (it_extra (snd a))) (snd c))) blocks)).
Proof.
  intros M ID NW HC R A O C.
  destruct (C103_contained d p w base info w1 sg _ w2 sg2 outs it w3 sg3 M ID NW R A O C) as (-> & DD & _). split; [reflexivity|].
  destruct (columns_have p cols rows HC) as (blocks & CC & SS & EB).
  exists blocks. split; [exact CC|]. split; [exact SS|]. rewrite DD, EB. f_equal. f_equal. clear. induction blocks as [|[nl l] blocks IH]; [reflexivity|].
  cbn [map concat fst snd]. rewrite map_app, concat_app, IH. f_equal. unfold written. rewrite map_map. reflexivity.
Qed.

(** C107: raw string columns of a segment are written and closed one after the
    other, panics are caught, no call reports an error and the segment is closed.
    Then the data file has, after its signature, exactly blocks with the contents of
    the columns ([column_content]), and the index file describes exactly the columns
    whose close returned. *)
Theorem C107_contents : forall d p w base info w1 sg cols rows w2 sg2 outs it w3 sg3,
  0 < wd_max w -> is_id (si_segment_id info) -> segment_new w base info = (w1, Ok sg) ->
  Forall2 column_given cols rows ->
  caught_columns p w1 sg (map column_calls cols) = (w2, sg2, outs) -> Forall none_reported outs ->
  (forall l, Permutation l (it_columns it l)) /\ (forall l, Permutation l (it_layouts it l)) -> segment_close w2 sg2 it = (w3, sg3, Ok tt) ->
  (exists blocks, contents cols rows outs blocks
     /\ directory_after d (wd_log w3) (data_path base (si_segment_id info))
        = Some ([77; 69; 69; 82; 75; 65; 84; 95; 68; 65; 84; 65; 49]%N
                ++ concat (map (fun c => concat (map (fun a => bin_block (fst c) (it_rows (snd a)) (it_extra (snd a))) (snd c))) blocks)))
  /\ exists file m, directory_after d (wd_log w3) (index_path base (si_segment_id info)) = Some file
     /\ ((N.of_nat (length file) < 18446744073709551616)%N -> read_index_file file = Some m) /\ describes_segment info (closed_well cols outs) m.
Proof.
  intros d p w base info w1 sg cols rows w2 sg2 outs it w3 sg3 M ID NW HC R A O C.
  destruct (C103_contained d p w base info w1 sg _ w2 sg2 outs it w3 sg3 M ID NW R A O C) as (_ & _ & _ & DI).
  destruct (data_file d p w base info w1 sg cols rows w2 sg2 outs it w3 sg3 M ID NW HC R A O C) as (-> & blocks & CC & _ & DD).
  rewrite (closes_well p cols rows HC) in DI. split; [|exact DI]. exists blocks. auto.
Qed.
Print Assumptions C107_contents.

Lemma took_all bs outs vals : took bs outs vals -> Forall (fun o => o = Ret (Ok tt)) outs -> vals = somes (concat bs).
Proof.
  induction 1 as [|b out t more bs outs ts E K T IH]; intros F; [reflexivity|]. apply Forall_cons_iff in F. destruct F as [F1 F2].
  rewrite (K F1), app_nil_r in E. cbn [concat]. rewrite somes_app, E, (IH F2). reflexivity.
Qed.

(** If no call panics either, all values are there. *)
Theorem C107_complete : forall d p w base info w1 sg cols rows w2 sg2 outs it w3 sg3,
  0 < wd_max w -> is_id (si_segment_id info) -> segment_new w base info = (w1, Ok sg) ->
  Forall2 column_given cols rows ->
  caught_columns p w1 sg (map column_calls cols) = (w2, sg2, outs) -> Forall (Forall (fun o => o = Ret (Ok tt))) outs ->
  (forall l, Permutation l (it_columns it l)) /\ (forall l, Permutation l (it_layouts it l)) -> segment_close w2 sg2 it = (w3, sg3, Ok tt) ->
  exists blocks,
    Forall2 (fun bs (c : bool * list (N * bin_item)) => concat (map (fun a => somes (it_rows (snd a))) (snd c)) = somes (concat bs)) rows blocks
    /\ map fst blocks = map (fun c => ci_nullable (fst c)) cols
    /\ directory_after d (wd_log w3) (data_path base (si_segment_id info))
       = Some ([77; 69; 69; 82; 75; 65; 84; 95; 68; 65; 84; 65; 49]%N
               ++ concat (map (fun c => concat (map (fun a => bin_block (fst c) (it_rows (snd a)) (it_extra (snd a))) (snd c))) blocks))
    /\ closed_well cols outs = map fst cols.
Proof.
  intros d p w base info w1 sg cols rows w2 sg2 outs it w3 sg3 M ID NW HC R A O C.
  assert (A' : Forall none_reported outs) by (eapply Forall_impl; [|exact A]; intros o F; eapply Forall_impl; [|exact F]; intros x ->; discriminate).
  destruct (C107_contents d p w base info w1 sg cols rows w2 sg2 outs it w3 sg3 M ID NW HC R A' O C) as ((blocks & CC & DD) & _).
  exists blocks. rewrite DD.
  assert (X : Forall2 (fun bs (c : bool * list (N * bin_item)) => concat (map (fun a => somes (it_rows (snd a))) (snd c)) = somes (concat bs)) rows blocks
    /\ map fst blocks = map (fun c => ci_nullable (fst c)) cols /\ closed_well cols outs = map fst cols).
  { clear -CC A. induction CC as [|c bs o l cols rows outs blocks CO CC IH]; [repeat split; constructor|]. apply Forall_cons_iff in A. destruct A as [A1 A2].
    destruct (IH A2) as (I1 & I2 & I3). destruct CO as (writes & close & vals & held & total & -> & T & V & _ & K).
    apply Forall_app in A1. destruct A1 as [A1 A3]. apply Forall_cons_iff in A3. destruct A3 as [-> _]. cbn [map fst closed_well]. rewrite last_last, I2, I3.
    split; [constructor; [|exact I1]|split; reflexivity]. cbn [snd]. rewrite <- (took_all _ _ _ T A1), <- V.
    destruct K as [[_ ->]|[[K _]|[K _]]]; [symmetry; apply app_nil_r|discriminate K..]. }
  destruct X as (X1 & X2 & X3). auto.
Qed.
Print Assumptions C107_complete.

(** The second column holds back 129 items, so that its close panics; the others
    are not affected. *)
Definition some_columns : list (column_info * list (list row)) :=
  [(ex_a, [[Some [1; 2]%N; Some (repeat 3%N 127)]; [Some [4%N]]]);
   (ex_stuck, [[Some [9%N]]; repeat (Some []) 128]);
   (ex_a2, [[None; Some [5; 6]%N]; [Some [7%N]; None]])].
Definition given_columns : list (column_info * list bin_buf) := map (fun c => (fst c, map (items_of (ci_nullable (fst c))) (snd c))) some_columns.

Example C107_example :
  Forall2 column_given given_columns (map snd some_columns)
  /\ match segment_new ex_world ex_base ex_info with
     | (w1, Ok sg) =>
         let '(w2, sg2, outs) := caught_columns Debug w1 sg (map column_calls given_columns) in
         let '(w3, sg3, r) := segment_close w2 sg2 ex_it in
         r = Ok tt /\ outs = [[Ret (Ok tt); Ret (Ok tt); Ret (Ok tt)]; [Ret (Ok tt); Ret (Ok tt); Panic PAssert]; [Ret (Ok tt); Ret (Ok tt); Ret (Ok tt)]]
         /\ closed_well given_columns outs = [ex_a; ex_a2]
         /\ directory_after (fun _ => None) (wd_log w3) (data_path ex_base (si_segment_id ex_info))
            = Some ([77; 69; 69; 82; 75; 65; 84; 95; 68; 65; 84; 65; 49]%N
                    ++ bin_block false [Some [1; 2]%N; Some (repeat 3%N 127)] [] ++ bin_block false [Some [4%N]] []
                    ++ bin_block true [None; Some [5; 6]%N; Some [7%N]] [])
     | _ => False
     end.
Proof.
  split.
  - assert (G : forall ci bs, ci_encoding ci = Raw -> Forall (fun b => bb_holds (items_of (ci_nullable ci) b) (ci_nullable ci) b) bs ->
      (N.of_nat (length (concat bs)) <= 2 ^ 32 - 2)%N -> (N.of_nat (bytes_of (concat bs)) < 2 ^ 32 - 1)%N -> column_given (ci, map (items_of (ci_nullable ci)) bs) bs).
    { intros ci bs R F H1 H2. split; [exact R|]. split; [|split; assumption]. cbn [fst snd]. clear -F. induction F; cbn [map]; constructor; assumption. }
    assert (P : forall rows, bb_data (items_of false rows) = concat (somes rows) -> bb_offsets (items_of false rows) = running_offsets 0 (somes rows) ->
      bb_validity (items_of false rows) = None -> forallb is_some rows = true -> bb_holds (items_of false rows) false rows).
    { intros rows H1 H2 H3 H4. split; [exact H1|]. split; [exact H2|]. rewrite H3. split; [reflexivity|]. apply Forall_forall. apply forallb_forall. exact H4. }
    assert (Q : forall rows, bb_data (items_of true rows) = concat (somes rows) -> bb_offsets (items_of true rows) = running_offsets 0 (somes rows) ->
      (exists bm, bb_validity (items_of true rows) = Some bm /\ reads_as bm (validity_of rows)) -> bb_holds (items_of true rows) true rows).
    { intros rows H1 H2 (bm & H3 & H4). split; [exact H1|]. split; [exact H2|]. rewrite H3. split; [reflexivity|exact H4]. }
    assert (V : forall n : N, (n <= 300)%N -> (n <= 2 ^ 32 - 2)%N /\ (n < 2 ^ 32 - 1)%N) by (intros n; change (2 ^ 32)%N with 4294967296%N; lia).
    constructor; [|constructor; [|constructor; [|constructor]]].
    + apply (G ex_a); [reflexivity| |apply V; vm_compute; discriminate..]. constructor; [apply P; vm_compute; reflexivity|constructor; [apply P; vm_compute; reflexivity|constructor]].
    + apply (G ex_stuck); [reflexivity| |apply V; vm_compute; discriminate..]. constructor; [apply P; vm_compute; reflexivity|constructor; [apply P; vm_compute; reflexivity|constructor]].
    + apply (G ex_a2); [reflexivity| |apply V; vm_compute; discriminate..].
      constructor; [|constructor; [|constructor]]; (apply Q; [vm_compute; reflexivity..|]; eexists; split; [vm_compute; reflexivity|]; split; [reflexivity|]; intros [|[|i]]; reflexivity).
  - vm_compute. repeat split.
Qed.
