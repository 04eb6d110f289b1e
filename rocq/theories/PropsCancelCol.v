(** C100: calls on columns that are dropped before they are finished. *)
From Verif Require Import Base Buffers Sink PrimEnc BinEnc Io SpecIo IoProofs PropsIo Metadata Proto SpecProto ProtoProofs ReadBlock BlockProofs Names PropsNames Segment SpecSegment
  SegmentProofs SegmentRunProofs PropsSegment PropsSegmentEx PropsIndexErr Cancel PropsCancel.
From Coq Require Import Permutation.
Open Scope nat_scope.

(** * The calls *)

(** segment_writer.rs:281-328 [ColumnWriter::close], dropped if it needs more than
    [n] operations of the file (see Cancel.v).  It waits in line 282 only: the
    block index does nothing in block_index.rs:46-50, and there is no other index. *)
Definition column_close_within (n : nat) (p : profile) (w : world) (sg : segment) (cw : column_writer)
  : outcome (world * segment * column_writer * option (result unit)) :=
  let* r := bin_flush sink_write_within p (cw_encoder cw) ((w, sg_data sg, sg_block_index sg), Some n) in
  let '(e, ((w1, dt, bi), rest), res) := r in
  let cw1 := mkcw (cw_info cw) e in
  let sg1 := mksegment dt (sg_index sg) bi (sg_meta sg) in
  match rest, res with
  | None, _ => Ret (w1, sg1, cw1, None)
  | Some _, Err => Ret (w1, sg1, cw1, Some Err)
  | Some _, Ok encoder_layout =>
      match md_segment_meta (sg_meta sg) with
      | None => Panic PExpect
      | Some sm =>
          let name := ci_name (cw_info cw) in
          let sm1 := mksmeta (sm_segment_id sm) (sm_database_name sm) (sm_table_name sm) (sm_shard_id sm)
                             (sm_compressed_size sm) (sm_uncompressed_size sm) (sm_num_rows sm)
                             (hm_insert name (column_meta_of (cw_info cw)) (sm_columns_meta sm)) in
          let meta := mkmeta (Some sm1) (hm_insert name (mkclayout (Some (bi_flush bi)) None (Some encoder_layout)) (md_columns_layout (sg_meta sg))) in
          Ret (w1, mksegment dt (sg_index sg) bi meta, cw1, Some (Ok tt))
      end
  end.

(** A call that may be dropped after so many operations, or is awaited to its end.
    Of src/store/segment_writer.rs:270, 281. *)
Record limited := mklim { lm_op : col_op; lm_limit : option nat }.

(** One such call.
    src/store/segment_writer.rs:270-278, 281-328. *)
Definition limited_step (p : profile) (w : world) (sg : segment) (cw : column_writer) (o : limited)
  : outcome (world * segment * column_writer * option (result unit)) :=
  match lm_limit o, lm_op o with
  | Some n, CWrite b => column_write_within n p w sg cw b
  | Some n, CClose => column_close_within n p w sg cw
  | None, op => let* r := column_step p w sg cw op in let '(w1, sg1, cw1, res) := r in Ret (w1, sg1, cw1, Some res)
  end.

(** The reports of all the calls on one column; [None] for those dropped.
    src/store/segment_writer.rs:270-278, 281-328. *)
Fixpoint limited_run (p : profile) (w : world) (sg : segment) (cw : column_writer) (ops : list limited)
  : outcome (world * segment * list (option (result unit))) :=
  match ops with
  | [] => Ret (w, sg, [])
  | o :: rest =>
      let* r := limited_step p w sg cw o in
      let '(w, sg, cw, res) := r in
      let* r := limited_run p w sg cw rest in
      let '(w, sg, more) := r in Ret (w, sg, res :: more)
  end.

(** Several columns, one after the other, none with an encoding that is refused.
    src/store/segment_writer.rs:199-218, 270-328. *)
Fixpoint limited_columns (p : profile) (w : world) (sg : segment) (cols : list (column_info * list limited))
  : outcome (world * segment * list (option (result unit))) :=
  match cols with
  | [] => Ret (w, sg, [])
  | (ci, ops) :: rest =>
      match new_binary_column_writer sg ci with
      | (sg, Err) => Ret (w, sg, [Some Err])
      | (sg, Ok cw) =>
          let* r := limited_run p w sg cw ops in
          let '(w, sg, rs) := r in
          let* r := limited_columns p w sg rest in
          let '(w, sg, more) := r in Ret (w, sg, rs ++ more)
      end
  end.

Definition no_error (rs : list (option (result unit))) : Prop := Forall (fun r => r <> Some Err) rs.

(** * What happens to the blocks *)

(** A block handed to the writer of the data file: accepted, or dropped after so
    many of its bytes. *)
Record offer := mkoffer { of_row : N; of_bytes : list N; of_cut : option nat }.

Definition whole (b : N * list N) : offer := mkoffer (fst b) (snd b) None.

Definition arrived (o : offer) : list N := match of_cut o with None => of_bytes o | Some k => firstn k (of_bytes o) end.

(** The entries of the block index: the blocks accepted, each with its end as if
    all the bytes of all blocks had arrived. *)
Fixpoint counted (from : N) (os : list offer) : list (N * N) :=
  match os with
  | [] => []
  | o :: rest =>
      let to := (from + N.of_nat (length (of_bytes o)))%N in
      match of_cut o with None => (of_row o, to) :: counted to rest | Some _ => counted to rest end
  end.

Definition offered (os : list offer) : N := N.of_nat (length (concat (map of_bytes os))).

(** One call of an encoder whose sink accepts the blocks [accepted] and then, if
    the call is dropped, has the next one cut off. *)
Definition encoder_step (p : profile) (e : bin_encoder) (op : col_op) (l : sink_log) : outcome (bin_encoder * sink_log * result unit) :=
  match op with CWrite b => bin_encode accepts p e b l | CClose => flushed (bin_flush accepts p e l) end.

Inductive step_story (p : profile) (chunk : nat) (e : bin_encoder) (o : limited) : option (result unit) -> list offer -> bin_encoder -> Prop :=
  | st_done accepted e' : encoder_step p e (lm_op o) (mklog (length accepted) [] []) = Ret (e', mklog 0 accepted [], Ok tt) ->
      step_story p chunk e o (Some (Ok tt)) (map whole accepted) e'
  | st_dropped accepted r b n j e' : encoder_step p e (lm_op o) (mklog (length accepted) [] []) = Ret (e', mklog 0 accepted [(r, b)], Err) ->
      lm_limit o = Some n -> j <= n -> j * chunk < length b ->
      step_story p chunk e o None (map whole accepted ++ [mkoffer r b (Some (j * chunk))]) e'.

Inductive run_story (p : profile) (chunk : nat) : bin_encoder -> list limited -> list (option (result unit)) -> list offer -> Prop :=
  | rs_nil e : run_story p chunk e [] [] []
  | rs_cons e o ops r rs os os' e' : step_story p chunk e o r os e' -> run_story p chunk e' ops rs os' ->
      run_story p chunk e (o :: ops) (r :: rs) (os ++ os').

(** All columns; the block index has the entries of the last one. *)
Inductive columns_story (p : profile) (chunk : nat) : N -> list (N * N) -> list (column_info * list limited) -> list (option (result unit)) -> list offer -> list (N * N) -> Prop :=
  | cs_nil from ent : columns_story p chunk from ent [] [] [] ent
  | cs_cons from ent ci ops cols e rs rs' os os' ent' :
      new_binary_encoder (ci_encoding ci) 128 (ci_nullable ci) = Ok e -> run_story p chunk e ops rs os ->
      columns_story p chunk (from + offered os) (counted from os) cols rs' os' ent' ->
      columns_story p chunk from ent ((ci, ops) :: cols) (rs ++ rs') (os ++ os') ent'.

(** The columns closed by a call that was not dropped. *)
Fixpoint really_closed (ci : column_info) (ops : list limited) (rs : list (option (result unit))) : list column_info :=
  match ops, rs with
  | o :: ops, r :: rs => match lm_op o, r with CClose, Some (Ok _) => ci :: really_closed ci ops rs | _, _ => really_closed ci ops rs end
  | _, _ => []
  end.

Fixpoint all_closed (cols : list (column_info * list limited)) (rs : list (option (result unit))) : list column_info :=
  match cols with
  | [] => []
  | (ci, ops) :: cols => really_closed ci ops rs ++ all_closed cols (skipn (length ops) rs)
  end.

(** * Proofs *)

Lemma counted_app os : forall from os', counted from (os ++ os') = counted from os ++ counted (from + offered os) os'.
Proof.
  unfold offered. induction os as [|o os IH]; intros from os'; cbn [app counted map concat length].
  - rewrite N.add_0_r. reflexivity.
  - rewrite app_length, Nat2N.inj_add, N.add_assoc. destruct (of_cut o); rewrite IH; reflexivity.
Qed.

Lemma offered_app a b : offered (a ++ b) = (offered a + offered b)%N.
Proof. unfold offered. rewrite map_app, concat_app, app_length. lia. Qed.

Lemma arrived_app a b : concat (map arrived (a ++ b)) = concat (map arrived a) ++ concat (map arrived b).
Proof. rewrite map_app, concat_app. reflexivity. Qed.

Lemma whole_facts bl : forall from, map fst (counted from (map whole bl)) = map fst bl /\ map snd (counted from (map whole bl)) = ends from bl
  /\ offered (map whole bl) = N.of_nat (length (bytes_in bl)) /\ concat (map arrived (map whole bl)) = bytes_in bl.
Proof.
  assert (A : map of_bytes (map whole bl) = map snd bl) by (rewrite map_map; reflexivity).
  intros from. unfold offered, bytes_in. rewrite A. split; [|split; [|split; [reflexivity|]]].
  - revert from. clear. induction bl as [|[r b] bl IH]; intros from; cbn; [reflexivity|]. rewrite IH. reflexivity.
  - revert from. clear. induction bl as [|[r b] bl IH]; intros from; cbn; [reflexivity|]. rewrite IH. reflexivity.
  - rewrite map_map. reflexivity.
Qed.

(** Where a sink stands after the blocks [os]. *)
Definition grown (d : directory) (fd : path) (w : world) (wr : writer) (bi : block_index) (data : list N) (os : list offer) (w1 : world) (wr1 : writer) (bi1 : block_index) : Prop :=
  extends fd w w1 /\ sound d fd w1 wr1 (data ++ concat (map arrived os)) /\ wr_pos wr1 = (wr_pos wr + offered os)%N
  /\ bi_row_id bi1 = bi_row_id bi ++ map fst (counted (wr_pos wr) os) /\ bi_offset bi1 = bi_offset bi ++ map snd (counted (wr_pos wr) os).

Lemma feed_grown d fd bl w wr bi w1 wr1 bi1 data : sound d fd w wr data ->
  SegmentProofs.feed sink_write (w, wr, bi) bl = ((w1, wr1, bi1), Ok tt) -> grown d fd w wr bi data (map whole bl) w1 wr1 bi1.
Proof.
  intros SD F. destruct (feed_sink d fd _ _ _ _ _ _ _ _ F SD) as (X & SD1 & PD1 & B1). destruct (whole_facts bl (wr_pos wr)) as (A1 & A2 & A3 & A4).
  unfold grown. rewrite A1, A2, A3, A4, B1. cbn [bi_row_id bi_offset]. auto.
Qed.

Lemma within_budget bl : forall n w wr bi w1 wr1 bi1 k, SegmentProofs.feed sink_write_within ((w, wr, bi), Some n) bl = (((w1, wr1, bi1), Some k), Ok tt) -> k <= n.
Proof.
  assert (A : forall m w f src w1 f1 k r, tk_write_all_within m w f src = (w1, f1, Some (k, r)) -> k <= m).
  { induction m as [|m IH]; intros w f [|b src] w1 f1 k r H; cbn [tk_write_all_within] in H; try (injection H as _ _ <- _; lia); [discriminate H|].
    destruct (tk_write w f (b :: src)) as [[w0 f0] [q|]]; [|injection H as _ _ <- _; lia].
    destruct (q =? 0); [injection H as _ _ <- _; lia|]. apply IH in H. lia. }
  induction bl as [|[r b] bl IH]; intros n w wr bi w1 wr1 bi1 k F; cbn [SegmentProofs.feed] in F.
  - injection F as _ _ _ <-. lia.
  - unfold sink_write_within at 1 in F. destruct (writer_write_within n w wr b) as [[w0 wr0] [[n0 [[]|]]|]] eqn:W; [|discriminate F..].
    apply IH in F. unfold writer_write_within in W. destruct (tk_write_all_within n w (wr_file wr) b) as [[wx fx] x] eqn:E. injection W as _ _ ->. apply A in E. lia.
Qed.

(** An encoder with a limited sink. *)
Lemma limited_hands d fd n w wr bi done last w1 wr1 bi1 rest res data : sound d fd w wr data ->
  hands sink_write_within ((w, wr, bi), Some n) done last ((w1, wr1, bi1), rest) res ->
  (exists k, rest = Some k /\ ((last = None /\ res = Ok tt /\ grown d fd w wr bi data (map whole done) w1 wr1 bi1) \/ res = Err))
  \/ (rest = None /\ res = Err /\ exists r b j, last = Some (r, b) /\ j <= n /\ j * wd_max w < length b
      /\ grown d fd w wr bi data (map whole done ++ [mkoffer r b (Some (j * wd_max w))]) w1 wr1 bi1).
Proof.
  intros SD (([[wb db] bb] & nb) & F & L). assert (M : 0 < wd_max w) by (destruct SD as (M & _); exact M).
  destruct (within_feed _ _ _ _ _ _ _ _ _ F M) as ((k & ->) & MB & F'). pose proof (within_budget _ _ _ _ _ _ _ _ _ F) as KN.
  pose proof (feed_grown d fd _ _ _ _ _ _ _ _ SD F') as (GX & GS & GP & GR & GO).
  destruct last as [[r b]|]; destruct L as [L ->].
  - unfold sink_write_within in L. destruct (writer_write_within k wb db b) as [[wc dc] [[nc [u|]]|]] eqn:W; [discriminate L|injection L as <- <- <- <-..].
    + left. eexists. split; [reflexivity|]. right. reflexivity.
    + right. split; [reflexivity|]. split; [reflexivity|]. exists r, b, k. split; [reflexivity|]. split; [exact KN|].
      destruct (within_sound _ _ _ _ _ _ _ _ _ GS W) as (L & X & SD1 & P1). rewrite MB in *. split; [exact L|].
      assert (C : counted (wr_pos wr) (map whole done ++ [mkoffer r b (Some (k * wd_max w))]) = counted (wr_pos wr) (map whole done)).
      { rewrite counted_app. cbn [counted of_cut]. apply app_nil_r. }
      split; [eapply extends_trans; eassumption|]. split; [|split; [|split; [rewrite C; exact GR|rewrite C; exact GO]]].
      * rewrite arrived_app. cbn [map concat]. unfold arrived at 2. cbn [of_cut of_bytes]. rewrite app_nil_r, app_assoc. exact SD1.
      * rewrite P1, GP, offered_app. unfold offered at 3. cbn [map of_bytes concat]. rewrite app_nil_r. lia.
  - injection L as -> -> -> ->. left. eexists. split; [reflexivity|]. left. split; [reflexivity|]. split; [reflexivity|].
    split; [exact GX|]. split; [exact GS|]. split; [exact GP|]. split; [exact GR|exact GO].
Qed.

Lemma plain_hands d fd w wr bi done last w1 wr1 bi1 data : sound d fd w wr data ->
  hands sink_write (w, wr, bi) done last (w1, wr1, bi1) (Ok tt) -> last = None /\ grown d fd w wr bi data (map whole done) w1 wr1 bi1.
Proof.
  intros SD ([[wb db] bb] & F & L). destruct last as [[r b]|]; [destruct L as [_ L]; discriminate L|]. destruct L as [L _]. injection L as -> -> ->.
  split; [reflexivity|]. eapply feed_grown; eassumption.
Qed.

Lemma accepted_hands done : hands accepts (mklog (length done) [] []) done None (mklog 0 done []) (Ok tt).
Proof. pose proof (accepts_feed done 0 [] []) as AF. rewrite Nat.add_0_r in AF. cbn [app] in AF. eexists. split; [exact AF|]. split; reflexivity. Qed.

Lemma cut_hands done r b : hands accepts (mklog (length done) [] []) done (Some (r, b)) (mklog 0 done [(r, b)]) Err.
Proof. pose proof (accepts_feed done 0 [] []) as AF. rewrite Nat.add_0_r in AF. cbn [app] in AF. eexists. split; [exact AF|]. split; reflexivity. Qed.

(** One call. *)
Lemma limited_step_ok d p fd fi info w sg cw o w1 sg1 cw1 r data index closed : fd <> fi ->
  sound d fd w (sg_data sg) data -> sound d fi w (sg_index sg) index -> meta_ok info closed (sg_meta sg) -> enc_ok cw ->
  limited_step p w sg cw o = Ret (w1, sg1, cw1, r) -> r <> Some Err ->
  exists os, step_story p (wd_max w) (cw_encoder cw) o r os (cw_encoder cw1)
    /\ grown d fd w (sg_data sg) (sg_block_index sg) data os w1 (sg_data sg1) (sg_block_index sg1)
    /\ sound d fi w1 (sg_index sg1) index /\ sg_index sg1 = sg_index sg
    /\ meta_ok info (closed ++ really_closed (cw_info cw) [o] [r]) (sg_meta sg1) /\ enc_ok cw1 /\ cw_info cw1 = cw_info cw.
Proof.
  intros NE SD SI M EO H NR. destruct o as [op [n|]]; unfold limited_step in H; cbn [lm_op lm_limit] in H.
  - destruct op as [b|].
    + unfold column_write_within in H.
      destruct (bin_encode sink_write_within p (cw_encoder cw) b _) as [[[e [[[wa dt] bi] rest]] res]|k|] eqn:E; cbn [bind] in H; try discriminate H.
      destruct (bin_encode_feed _ _ _ _ _ _ _ _ E) as (LE & _). destruct (bin_encode_alike _ _ _ _ _ _ _ _ E) as (done & last & HH & G).
      injection H as <- <- <- <-. cbn [sg_data sg_index sg_block_index sg_meta cw_info cw_encoder].
      assert (EO' : enc_ok (mkcw (cw_info cw) e)) by (unfold enc_ok in *; cbn [cw_info cw_encoder]; congruence).
      destruct (limited_hands d fd _ _ _ _ _ _ _ _ _ _ _ _ SD HH) as [(k & -> & [(-> & -> & GR)| ->])|( -> & -> & rr & bb & j & -> & J1 & J2 & GR)]; [|congruence|];
        cbn [really_closed lm_op]; rewrite app_nil_r; (eexists; split; [|split; [exact GR|]]).
      * apply st_done. cbn [lm_op encoder_step]. apply G, accepted_hands.
      * destruct GR as (X & _). split; [eapply sound_other; eassumption|]. auto.
      * eapply st_dropped; [|reflexivity|exact J1|exact J2]. cbn [lm_op encoder_step]. apply G, cut_hands.
      * destruct GR as (X & _). split; [eapply sound_other; eassumption|]. auto.
    + unfold column_close_within in H.
      destruct (bin_flush sink_write_within p (cw_encoder cw) _) as [[[e [[[wa dt] bi] rest]] res]|k|] eqn:E; cbn [bind] in H; try discriminate H.
      destruct (bin_flush_feed _ _ _ _ _ _ _ E) as (LE & _ & r0 & _ & RE & _). pose proof (bin_flush_alike _ _ _ _ _ _ _ E) as (done & last & HH & G).
      assert (EO' : enc_ok (mkcw (cw_info cw) e)) by (unfold enc_ok in *; cbn [cw_info cw_encoder]; congruence). cbn zeta in H.
      destruct (limited_hands d fd _ _ _ _ _ _ _ _ _ _ _ _ SD HH) as [(k & -> & [(-> & RO & GR)|RO])|(-> & RO & rr & bb & j & -> & J1 & J2 & GR)].
      * destruct res as [lay|]; [|discriminate RO]. destruct r0 as [u|]; [|discriminate RE]. injection RE as ->.
        destruct M as (cols & lays & EM & DC & DL). rewrite EM in H. cbn [md_segment_meta md_columns_layout] in H. injection H as <- <- <- <-.
        cbn [sg_data sg_index sg_block_index sg_meta cw_info cw_encoder really_closed lm_op]. eexists. split; [apply st_done; cbn [lm_op encoder_step]; apply G, accepted_hands|].
        split; [exact GR|]. destruct GR as (X & _). split; [eapply sound_other; eassumption|]. split; [reflexivity|]. split; [|auto].
        eexists _, _. split; [reflexivity|]. split; [apply describes_insert, DC|].
        unfold bi_flush. unfold enc_ok in EO. rewrite EO. apply (describes_insert layout_of closed lays (cw_info cw) DL).
      * destruct res as [lay|]; [discriminate RO|]. injection H as <- <- <- <-. congruence.
      * injection H as <- <- <- <-.
        cbn [sg_data sg_index sg_block_index sg_meta cw_info cw_encoder really_closed lm_op]. rewrite app_nil_r. eexists. split; [|split; [exact GR|]].
        -- eapply st_dropped; [|reflexivity|exact J1|exact J2]. cbn [lm_op encoder_step]. rewrite RO in G. apply G, cut_hands.
        -- destruct GR as (X & _). split; [eapply sound_other; eassumption|]. auto.
  - destruct (column_step p w sg cw op) as [[[[wx sx] cx] res]|k|] eqn:E; cbn [bind] in H; try discriminate H. injection H as <- <- <- <-.
    destruct res as [[]|]; [|congruence]. destruct op as [b|]; cbn [column_step] in E.
    + unfold column_write in E. destruct (bin_encode sink_write p (cw_encoder cw) b _) as [[[e [[wa dt] bi]] res]|k|] eqn:EE; cbn [bind] in E; try discriminate E.
      injection E as <- <- <- ->. destruct (bin_encode_feed _ _ _ _ _ _ _ _ EE) as (LE & _). destruct (bin_encode_alike _ _ _ _ _ _ _ _ EE) as (done & last & HH & G).
      destruct (plain_hands d fd _ _ _ _ _ _ _ _ _ SD HH) as (-> & GR).
      cbn [sg_data sg_index sg_block_index sg_meta cw_info cw_encoder really_closed lm_op]. rewrite app_nil_r. eexists. split; [apply st_done; cbn [lm_op encoder_step]; apply G, accepted_hands|].
      split; [exact GR|]. destruct GR as (X & _). split; [eapply sound_other; eassumption|]. split; [reflexivity|]. split; [exact M|].
      split; [unfold enc_ok in *; cbn [cw_info cw_encoder]; congruence|reflexivity].
    + unfold column_close in E. destruct (bin_flush sink_write p (cw_encoder cw) _) as [[[e [[wa dt] bi]] res]|k|] eqn:EE; cbn [bind] in E; try discriminate E.
      destruct (bin_flush_feed _ _ _ _ _ _ _ EE) as (LE & _ & r0 & _ & RE & _). pose proof (bin_flush_alike _ _ _ _ _ _ _ EE) as (done & last & HH & G).
      destruct res as [lay|]; [|cbn zeta in E; discriminate E]. destruct r0 as [u|]; [|discriminate RE]. injection RE as ->.
      destruct M as (cols & lays & EM & DC & DL). rewrite EM in E. cbn [md_segment_meta md_columns_layout] in E. injection E as <- <- <-.
      destruct (plain_hands d fd _ _ _ _ _ _ _ _ _ SD HH) as (-> & GR).
      cbn [sg_data sg_index sg_block_index sg_meta cw_info cw_encoder really_closed lm_op]. eexists. split; [apply st_done; cbn [lm_op encoder_step]; apply G, accepted_hands|].
      split; [exact GR|]. destruct GR as (X & _). split; [eapply sound_other; eassumption|]. split; [reflexivity|].
      split; [|split; [unfold enc_ok in *; cbn [cw_info cw_encoder]; congruence|reflexivity]].
      eexists _, _. split; [reflexivity|]. split; [apply describes_insert, DC|].
      unfold bi_flush. unfold enc_ok in EO. rewrite EO. apply (describes_insert layout_of closed lays (cw_info cw) DL).
Qed.

Lemma grown_then d fd w wr bi data os w1 wr1 bi1 os' w2 wr2 bi2 : grown d fd w wr bi data os w1 wr1 bi1 ->
  grown d fd w1 wr1 bi1 (data ++ concat (map arrived os)) os' w2 wr2 bi2 -> grown d fd w wr bi data (os ++ os') w2 wr2 bi2.
Proof.
  intros (X & S1 & P & R & O) (X' & S2 & P' & R' & O'). unfold grown. rewrite arrived_app, app_assoc, offered_app, counted_app, !map_app, !app_assoc, <- R, <- O, <- P, R', O', P'.
  split; [eapply extends_trans; eassumption|]. split; [exact S2|]. split; [rewrite P; lia|]. auto.
Qed.

Lemma grown_max d fd w wr bi data os w1 wr1 bi1 : grown d fd w wr bi data os w1 wr1 bi1 -> wd_max w1 = wd_max w.
Proof. intros ((E & _) & _). exact E. Qed.

Lemma limited_run_ok d p fd fi info : fd <> fi -> forall ops w sg cw w1 sg1 rs data index closed,
  sound d fd w (sg_data sg) data -> sound d fi w (sg_index sg) index -> meta_ok info closed (sg_meta sg) -> enc_ok cw ->
  limited_run p w sg cw ops = Ret (w1, sg1, rs) -> no_error rs ->
  exists os, run_story p (wd_max w) (cw_encoder cw) ops rs os
    /\ grown d fd w (sg_data sg) (sg_block_index sg) data os w1 (sg_data sg1) (sg_block_index sg1)
    /\ sound d fi w1 (sg_index sg1) index /\ sg_index sg1 = sg_index sg
    /\ meta_ok info (closed ++ really_closed (cw_info cw) ops rs) (sg_meta sg1) /\ length rs = length ops.
Proof.
  intros NE. induction ops as [|o ops IH]; intros w sg cw w1 sg1 rs data index closed SD SI M EO H A; cbn [limited_run] in H.
  - injection H as <- <- <-. exists []. split; [constructor|]. cbn [really_closed]. rewrite app_nil_r. split; [|auto].
    unfold grown. cbn [map concat counted]. unfold offered. cbn [map concat length]. rewrite !app_nil_r, N.add_0_r. split; [apply extends_refl|auto].
  - destruct (limited_step p w sg cw o) as [[[[w0 sg0] cw0] r]|k|] eqn:E; cbn [bind] in H; try discriminate H.
    destruct (limited_run p w0 sg0 cw0 ops) as [[[w2 sg2] more]|k|] eqn:R; cbn [bind] in H; try discriminate H. injection H as <- <- <-.
    apply Forall_cons_iff in A. destruct A as [A0 A].
    destruct (limited_step_ok d p fd fi info _ _ _ _ _ _ _ _ _ _ _ NE SD SI M EO E A0) as (os & ST & GR & SI0 & EI & M0 & EO0 & CI).
    pose proof GR as (_ & SD0 & _). destruct (IH _ _ _ _ _ _ _ _ _ SD0 SI0 M0 EO0 R A) as (os' & RS & GR' & SI1 & EI' & M1 & LN).
    exists (os ++ os'). rewrite (grown_max _ _ _ _ _ _ _ _ _ _ GR) in RS. split; [econstructor; eassumption|]. split; [eapply grown_then; eassumption|].
    split; [exact SI1|]. split; [congruence|]. split; [|cbn [length]; congruence]. rewrite CI, <- app_assoc in M1.
    replace (really_closed (cw_info cw) (o :: ops) (r :: more)) with (really_closed (cw_info cw) [o] [r] ++ really_closed (cw_info cw) ops more); [exact M1|].
    cbn [really_closed]. destruct (lm_op o), r as [[[]|]|]; reflexivity.
Qed.

Lemma limited_columns_ok d p fd fi info : fd <> fi -> forall cols w sg w1 sg1 rs data index closed ent,
  sound d fd w (sg_data sg) data -> sound d fi w (sg_index sg) index -> meta_ok info closed (sg_meta sg) ->
  bi_row_id (sg_block_index sg) = map fst ent -> bi_offset (sg_block_index sg) = map snd ent ->
  limited_columns p w sg cols = Ret (w1, sg1, rs) -> no_error rs ->
  exists os ent', columns_story p (wd_max w) (wr_pos (sg_data sg)) ent cols rs os ent'
    /\ sound d fd w1 (sg_data sg1) (data ++ concat (map arrived os)) /\ sound d fi w1 (sg_index sg1) index /\ sg_index sg1 = sg_index sg
    /\ meta_ok info (closed ++ all_closed cols rs) (sg_meta sg1)
    /\ bi_row_id (sg_block_index sg1) = map fst ent' /\ bi_offset (sg_block_index sg1) = map snd ent'.
Proof.
  intros NE. induction cols as [|[ci ops] cols IH]; intros w sg w1 sg1 rs data index closed ent SD SI M B1 B2 H A; cbn [limited_columns] in H.
  - injection H as <- <- <-. exists [], ent. split; [constructor|]. cbn [map concat all_closed]. rewrite !app_nil_r. auto 7.
  - destruct (new_binary_column_writer sg ci) as [sg0 [cw|]] eqn:N.
    2:{ injection H as <- <- <-. apply Forall_cons_iff in A. destruct A as [A _]. congruence. }
    destruct (open_inv _ _ _ _ N) as (-> & CI & EO & NEW).
    destruct (limited_run p w _ cw ops) as [[[w2 sg2] rs1]|k|] eqn:R; cbn [bind] in H; try discriminate H.
    destruct (limited_columns p w2 sg2 cols) as [[[w3 sg3] rs2]|k|] eqn:RC; cbn [bind] in H; try discriminate H. injection H as <- <- <-.
    apply Forall_app in A. destruct A as [A1 A2].
    destruct (limited_run_ok d p fd fi info NE _ _ (mksegment (sg_data sg) (sg_index sg) bi_new (sg_meta sg)) _ _ _ _ _ _ _ SD SI M EO R A1) as (os & RS & GR & SI2 & EI & M2 & LN).
    cbn [sg_data sg_index sg_block_index sg_meta] in *. pose proof GR as (_ & SD2 & P2 & R2 & O2). cbn [bi_new bi_row_id bi_offset app] in R2, O2.
    destruct (IH _ _ _ _ _ _ _ _ _ SD2 SI2 M2 R2 O2 RC A2) as (os' & ent' & CS & SD3 & SI3 & EI3 & M3 & E1 & E2).
    rewrite (grown_max _ _ _ _ _ _ _ _ _ _ GR), P2 in CS. exists (os ++ os'), ent'. split; [econstructor; eassumption|].
    rewrite arrived_app, app_assoc. split; [exact SD3|]. split; [exact SI3|]. split; [congruence|]. split; [|auto].
    cbn [all_closed]. rewrite <- LN, skipn_app, skipn_all, Nat.sub_diag. cbn [skipn app]. rewrite <- CI, app_assoc.
    replace (really_closed (cw_info cw) ops (rs1 ++ rs2)) with (really_closed (cw_info cw) ops rs1); [exact M3|].
    clear -LN. revert rs1 LN. induction ops as [|o ops IH]; intros [|r rs1] LN; try discriminate LN; [destruct rs2; reflexivity|].
    injection LN as LN. cbn [app really_closed]. rewrite (IH _ LN). reflexivity.
Qed.

Lemma new_index w base info w1 sg : segment_new w base info = (w1, Ok sg) -> sg_block_index sg = bi_new.
Proof.
  unfold segment_new. destruct (writer_new w _) as [wa [ix|]]; [|discriminate]. destruct (writer_new wa _) as [wb [dt|]]; [|discriminate].
  unfold write_headers. cbn [sg_index sg_data sg_block_index sg_meta]. destruct (writer_write_block wb ix _) as [[wc ic] [u|]]; [|discriminate].
  destruct (writer_write_block wc dt _) as [[we de] [u'|]]; [|discriminate]. intros [= _ <-]. reflexivity.
Qed.

(** * C100 *)

(** Exactly what a segment is like when calls on its columns were dropped, after
    any number of operations each, and all others succeeded: which blocks were
    handed over, how much of each arrived, what the index says, and which columns
    the metadata describes. *)
Theorem C100_exact_partial : forall d p w base info w1 sg cols w2 sg2 rs it w3 sg3,
  0 < wd_max w -> is_id (si_segment_id info) -> segment_new w base info = (w1, Ok sg) ->
  limited_columns p w1 sg cols = Ret (w2, sg2, rs) -> no_error rs ->
  (forall l, Permutation l (it_columns it l)) /\ (forall l, Permutation l (it_layouts it l)) -> segment_close w2 sg2 it = (w3, sg3, Ok tt) ->
  exists os ent file m,
    columns_story p (wd_max w) 13 [] cols rs os ent
    /\ directory_after d (wd_log w3) (data_path base (si_segment_id info)) = Some ([77; 69; 69; 82; 75; 65; 84; 95; 68; 65; 84; 65; 49]%N ++ concat (map arrived os))
    /\ bi_row_id (sg_block_index sg2) = map fst ent /\ bi_offset (sg_block_index sg2) = map snd ent
    /\ directory_after d (wd_log w3) (index_path base (si_segment_id info)) = Some file
    /\ ((N.of_nat (length file) < 18446744073709551616)%N -> read_index_file file = Some m) /\ describes_segment info (all_closed cols rs) m.
Proof.
  intros d p w base info w1 sg cols w2 sg2 rs it w3 sg3 M ID N R A O C. destruct (C49_distinct base _ _ ID ID) as (_ & _ & NE).
  pose proof (segment_new_ok d p _ _ _ _ _ M ID N) as (blocks & index & B & MK & (SD & SI & PD & PI & MO)). injection B as <-.
  pose proof (new_index _ _ _ _ _ N) as BI.
  assert (W1 : wd_max w1 = wd_max w).
  { clear -N. unfold segment_new in N. destruct (writer_new w _) as [wa [ix|]] eqn:Na; [|discriminate N]. destruct (writer_new wa _) as [wb [dt|]] eqn:Nb; [|discriminate N].
    unfold write_headers in N. cbn [sg_index sg_data sg_block_index sg_meta] in N. destruct (writer_write_block wb ix _) as [[wc ic] [u|]] eqn:Wc; [|discriminate N].
    destruct (writer_write_block wc dt _) as [[we de] [u'|]] eqn:We; [|discriminate N]. injection N as <- _.
    destruct (writer_new_inv (fun _ => None) _ _ _ _ Na) as (Ma & _). destruct (writer_new_inv (fun _ => None) _ _ _ _ Nb) as (Mb & _).
    unfold writer_write_block in Wc, We. destruct (tk_write_all _ wb _ _) as [[x1 y1] z1] eqn:T1. destruct (tk_write_all _ wc _ _) as [[x2 y2] z2] eqn:T2.
    injection Wc as <- _ _. injection We as <- _ _. rewrite (write_all_max _ _ _ _ _ _ _ T2), (write_all_max _ _ _ _ _ _ _ T1). congruence. }
  destruct (limited_columns_ok d p _ _ info NE cols _ _ _ _ _ _ _ _ [] SD SI MO ltac:(rewrite BI; reflexivity) ltac:(rewrite BI; reflexivity) R A)
    as (os & ent & CS & SD2 & SI2 & EI & M2 & E1 & E2).
  destruct (close_anywhere d _ _ info _ _ _ _ _ _ _ _ NE SD2 SI2 M2 O C) as (m & MO3 & DI & DD & _).
  rewrite PD, W1 in CS. exists os, ent. eexists. exists m. split; [exact CS|]. split; [exact DD|]. split; [exact E1|]. split; [exact E2|]. split; [exact DI|].
  split; [|apply meta_describes, MO3]. rewrite EI, PI. intros SZ.
  replace (N.of_nat (length (index_file_signature ++ index))) with (N.of_nat (length (index_file_signature ++ index) + 0)) by (rewrite Nat.add_0_r; reflexivity).
  rewrite read_off_by; [cbn [Nat.leb skipn]; eapply meta_ok_readable, MO3|reflexivity|rewrite app_length; cbn; lia|].
  rewrite !app_length, le_length in SZ. rewrite !app_length. lia.
Qed.
Print Assumptions C100_exact_partial.

Lemma counted_in os : forall from row to, In (row, to) (counted from os) ->
  exists a bytes b, os = a ++ mkoffer row bytes None :: b /\ to = (from + offered a + N.of_nat (length bytes))%N.
Proof.
  induction os as [|[r bs [k|]] os IH]; intros from row to H; cbn [counted of_cut of_bytes of_row] in H; [destruct H| |].
  - destruct (IH _ _ _ H) as (a & bytes & b & -> & ->). exists (mkoffer r bs (Some k) :: a), bytes, b. split; [reflexivity|].
    unfold offered. cbn [map of_bytes concat]. rewrite app_length. lia.
  - destruct H as [[= <- <-]|H].
    + exists [], bs, os. split; [reflexivity|]. unfold offered. cbn. lia.
    + destruct (IH _ _ _ H) as (a & bytes & b & -> & ->). exists (mkoffer r bs None :: a), bytes, b. split; [reflexivity|].
      unfold offered. cbn [map of_bytes concat]. rewrite app_length. lia.
Qed.

(** How many bytes of these blocks did not arrive. *)
Definition missing (os : list offer) : N := (offered os - N.of_nat (length (concat (map arrived os))))%N.

Lemma arrived_le os : (N.of_nat (length (concat (map arrived os))) <= offered os)%N.
Proof.
  unfold offered. induction os as [|o os IH]; cbn [map concat]; [cbn; lia|]. rewrite !app_length.
  assert (length (arrived o) <= length (of_bytes o)) by (unfold arrived; destruct (of_cut o); [rewrite firstn_length|]; lia). lia.
Qed.

Lemma missing_none os : (forall o, In o os -> of_cut o = None) -> missing os = 0%N.
Proof.
  intros A. unfold missing, offered. replace (map arrived os) with (map of_bytes os); [lia|]. apply map_ext_in. intros o I. unfold arrived. rewrite (A o I). reflexivity.
Qed.

(** Every block of the index is in the data file, complete; but the index has it
    further back, by the bytes that did not arrive of the blocks before it that
    were dropped. *)
Theorem C100_too_far_partial : forall d p w base info w1 sg ci ops w2 sg2 rs it w3 sg3,
  0 < wd_max w -> is_id (si_segment_id info) -> segment_new w base info = (w1, Ok sg) ->
  limited_columns p w1 sg [(ci, ops)] = Ret (w2, sg2, rs) -> no_error rs ->
  (forall l, Permutation l (it_columns it l)) /\ (forall l, Permutation l (it_layouts it l)) -> segment_close w2 sg2 it = (w3, sg3, Ok tt) ->
  exists e os file, new_binary_encoder (ci_encoding ci) 128 (ci_nullable ci) = Ok e /\ run_story p (wd_max w) e ops rs os
    /\ directory_after d (wd_log w3) (data_path base (si_segment_id info)) = Some file
    /\ forall i row to, nth_error (bi_row_id (sg_block_index sg2)) i = Some row -> nth_error (bi_offset (sg_block_index sg2)) i = Some to ->
       exists a bytes b before after, os = a ++ mkoffer row bytes None :: b /\ file = before ++ bytes ++ after
         /\ to = (N.of_nat (length before + length bytes) + missing a)%N
         /\ ((forall o, In o a -> of_cut o = None) -> missing a = 0%N).
Proof.
  intros d p w base info w1 sg ci ops w2 sg2 rs it w3 sg3 M ID N R A O C.
  destruct (C100_exact_partial d p _ _ _ _ _ _ _ _ _ _ _ _ M ID N R A O C) as (os & ent & _ & _ & CS & DD & E1 & E2 & _).
  inversion CS as [|? ? ? ? ? e rs0 rs' os0 os' ? NEW RS CN]; subst. inversion CN; subst. rewrite app_nil_r in *.
  exists e, os0. eexists. split; [exact NEW|]. split; [exact RS|]. split; [exact DD|]. intros i row to H1 H2. rewrite E1 in H1. rewrite E2 in H2.
  rewrite nth_error_map in H1, H2. destruct (nth_error (counted 13 os0) i) as [[r t]|] eqn:E; [|discriminate H1]. injection H1 as <-. injection H2 as <-.
  apply nth_error_In in E. apply counted_in in E. destruct E as (a & bytes & b & EO & ET). exists a, bytes, b.
  eexists ([77; 69; 69; 82; 75; 65; 84; 95; 68; 65; 84; 65; 49]%N ++ concat (map arrived a)), (concat (map arrived b)).
  split; [exact EO|]. split; [rewrite EO, arrived_app; cbn [map concat]; unfold arrived at 2; cbn [of_cut of_bytes]; rewrite <- !app_assoc; reflexivity|].
  split; [|apply missing_none]. pose proof (arrived_le a) as L. unfold missing. rewrite app_length. cbn [length]. cbn [snd]. clear -ET L. cbn in ET. lia.
Qed.
Print Assumptions C100_too_far_partial.

(** The property: dropped calls do no harm to the others.  The blocks in the data
    file are those of the index, where it says. *)
Definition C100_statement : Prop := forall (d : directory) p w base info w1 sg ci ops w2 sg2 rs it w3 sg3 file,
  0 < wd_max w -> is_id (si_segment_id info) -> segment_new w base info = (w1, Ok sg) ->
  limited_columns p w1 sg [(ci, ops)] = Ret (w2, sg2, rs) -> no_error rs ->
  (forall l, Permutation l (it_columns it l)) /\ (forall l, Permutation l (it_layouts it l)) -> segment_close w2 sg2 it = (w3, sg3, Ok tt) ->
  directory_after d (wd_log w3) (data_path base (si_segment_id info)) = Some file ->
  exists blocks, file = [77; 69; 69; 82; 75; 65; 84; 95; 68; 65; 84; 65; 49]%N ++ concat (map snd blocks)
    /\ bi_row_id (sg_block_index sg2) = map fst blocks /\ bi_offset (sg_block_index sg2) = block_ends 13 blocks.

(** A write that is dropped after two of the three chunks of its block, made
    again, and a close that is dropped at once and made again. *)
Definition ex_limited : list limited := [mklim (CWrite ex_buf) (Some 2); mklim (CWrite ex_buf) None; mklim CClose (Some 0); mklim CClose None].

Definition ex_limited_run : option (list (option (result unit)) * segment * world * result unit) :=
  match segment_new ex_world ex_base ex_info with
  | (w1, Ok sg) =>
      match limited_columns Debug w1 sg [(ex_a, ex_limited)] with
      | Ret (w2, sg2, rs) => let '(w3, sg3, r) := segment_close w2 sg2 ex_it in Some (rs, sg2, w3, r)
      | _ => None
      end
  | _ => None
  end.

(** The block of the second write ends at 251 = 289 - 38, the last one at 298, of
    which the index says 383. *)
Example C100_witness :
  match ex_limited_run with
  | Some (rs, sg2, w3, r) =>
      rs = [None; Some (Ok tt); None; Some (Ok tt)] /\ r = Ok tt /\ bi_row_id (sg_block_index sg2) = [5; 7]%N /\ bi_offset (sg_block_index sg2) = [289; 383]%N
      /\ option_map (@length N) (directory_after (fun _ => None) (wd_log w3) (data_path ex_base (si_segment_id ex_info))) = Some 298
  | None => False
  end.
Proof. vm_compute. repeat split. Qed.

Theorem C100_refuted : ~ C100_statement.
Proof.
  intros H. pose proof C100_witness as W. unfold ex_limited_run in W.
  destruct (segment_new ex_world ex_base ex_info) as [w1 [sg|]] eqn:N; [|destruct W].
  destruct (limited_columns Debug w1 sg [(ex_a, ex_limited)]) as [[[w2 sg2] rs]|k|] eqn:R; [|destruct W..].
  destruct (segment_close w2 sg2 ex_it) as [[w3 sg3] r] eqn:C. destruct W as (-> & -> & _ & W & L).
  destruct (directory_after _ (wd_log w3) _) as [file|] eqn:D; [|discriminate L]. injection L as L.
  assert (ID : is_id (si_segment_id ex_info)) by (split; [reflexivity|repeat constructor]).
  destruct (H (fun _ => None) Debug ex_world ex_base ex_info w1 sg ex_a ex_limited w2 sg2 _ ex_it w3 sg3 file ltac:(cbn; lia) ID N R ltac:(repeat constructor; discriminate)
              ltac:(split; intros l; cbn; [apply Permutation_rev|apply Permutation_refl]) C D) as (blocks & EF & _ & EO).
  rewrite W in EO. assert (B : forall bl from to, In to (block_ends from bl) -> (to <= from + N.of_nat (length (concat (map snd bl))))%N).
  { clear. induction bl as [|b bl IH]; intros from to I; cbn [block_ends map concat In] in *; [destruct I|]. rewrite app_length. destruct I as [<-|I]; [lia|]. apply IH in I. lia. }
  assert (I : In 383%N (block_ends 13 blocks)) by (rewrite <- EO; right; left; reflexivity).
  apply B in I. rewrite EF, app_length in L. cbn [length] in L. lia.
Qed.
Print Assumptions C100_refuted.

(** A close that is not dropped does what it does otherwise; for a write see
    [C74_column_not_dropped]. *)
Theorem C100_close_not_dropped : forall n p w sg cw w1 sg1 cw1 r, 0 < wd_max w ->
  column_close_within n p w sg cw = Ret (w1, sg1, cw1, Some r) -> column_close p w sg cw = Ret (w1, sg1, cw1, r).
Proof.
  intros n p w sg cw w1 sg1 cw1 r M H. unfold column_close_within in H.
  destruct (bin_flush sink_write_within p (cw_encoder cw) _) as [[[e [[[wa dt] bi] rest]] res]|k|] eqn:E; cbn [bind] in H; try discriminate H. cbn zeta in H.
  destruct rest as [x|]; [|discriminate H].
  destruct (bin_flush_feed _ _ _ _ _ _ _ E) as (_ & _ & r0 & _ & RE & _). pose proof (bin_flush_alike _ _ _ _ _ _ _ E) as (done & last & (([[wb db] bb] & nb) & F & L) & G).
  destruct (within_feed _ _ _ _ _ _ _ _ _ F M) as ((k & ->) & MB & F').
  assert (HH : hands sink_write (w, sg_data sg, sg_block_index sg) done last (wa, dt, bi) (match res with Ok _ => Ok tt | Err => Err end)).
  { exists (wb, db, bb). split; [exact F'|]. destruct last as [[rr b]|].
    - destruct L as [L RR]. split; [|exact RR]. unfold sink_write_within in L. unfold sink_write. destruct (writer_write_within k wb db b) as [[wc dc] [[nc [u|]]|]] eqn:W; [discriminate L| |discriminate L].
      rewrite (writer_within_all _ _ _ _ _ _ _ _ ltac:(rewrite MB; exact M) W). injection L as <- <- <- _. reflexivity.
    - destruct L as [L RR]. injection L as -> -> -> _. split; [reflexivity|exact RR]. }
  pose proof (G _ _ _ _ HH) as Q. unfold flushed in Q.
  destruct (bin_flush sink_write p (cw_encoder cw) (w, sg_data sg, sg_block_index sg)) as [[[e2 s2] res2]|k2|] eqn:E2; cbn [bind] in Q; try discriminate Q.
  injection Q as -> -> Q. destruct (bin_flush_feed _ _ _ _ _ _ _ E2) as (_ & _ & r2 & _ & RE2 & _).
  assert (RR : res2 = res) by (rewrite RE, RE2 in *; destruct r0, r2; try discriminate Q; reflexivity). rewrite RR in E2. clear RR RE2 RE Q.
  unfold column_close. rewrite E2. cbn [bind]. cbn zeta. destruct res as [lay|].
  - destruct (md_segment_meta (sg_meta sg)); [|discriminate H]. injection H as <- <- <- <-. reflexivity.
  - injection H as <- <- <- <-. reflexivity.
Qed.
Print Assumptions C100_close_not_dropped.
