(** Properties C55 and C73 for whole segments: what both files, the block index
    and the reports are after any history and any failures of the operating
    system. *)
From Coq Require Import Permutation.
From Verif Require Import Base BaseProofs Spec SpecRows SpecBin SpecFail Buffers Observe Sink BinEnc Io SpecIo IoProofs PropsIo PropsIoLoss Metadata
  PrimEnc Proto SpecProto Names PropsNames Segment SpecSegment SegmentProofs SegmentRunProofs PropsSegment PropsSegmentEx PropsSegmentRef PropsDespite PropsBin PropsBinFail TreeProofs.
Open Scope nat_scope.

(** * Vocabulary *)

(** Offering blocks is writing them. *)
Definition offer_ops (os : offered) : list (writer_op * result unit) := map (fun o => (WBlock (snd (fst o)), verdict (snd o))) os.

Definition size_of (os : offered) : N := N.of_nat (length (concat (map (fun o => snd (fst o)) os))).

(** The entries of the block index: identifier and end of every block accepted.
    All blocks count for the ends, whether accepted or not. *)
Fixpoint entries_of (pos : N) (os : offered) : list (N * N) :=
  match os with
  | [] => []
  | (r, b, ok) :: rest =>
      let pos' := (pos + N.of_nat (length b))%N in
      (if ok : bool then [(r, pos')] else []) ++ entries_of pos' rest
  end.

Definition col_call (o : col_op) : option bin_buf := match o with CWrite b => Some b | CClose => None end.

(** A snappy column offers the same block for every buffer and reports what
    became of it. *)
Fixpoint snappy_story (cops : list col_op) (os : offered) (rs : list (result unit)) : Prop :=
  match cops with
  | [] => os = [] /\ rs = []
  | CWrite _ :: cops' =>
      exists ok os' rs', os = (43243%N, [115; 110; 97; 112; 112; 121]%N, ok) :: os' /\ rs = verdict ok :: rs' /\ snappy_story cops' os' rs'
  | CClose :: cops' => exists rs', rs = Ok tt :: rs' /\ snappy_story cops' os rs'
  end.

(** The blocks [os] that a column offers and its reports [rs].  For a raw column
    these are what [bin_call] says, given the answers, if the buffers are what a
    user can make. *)
Definition column_story (p : profile) (ci : column_info) (cops : list col_op) (os : offered) (rs : list (result unit)) : Prop :=
  match ci_encoding ci with
  | Raw =>
      forall rowss, Forall2 (call_holds (ci_nullable ci)) (map col_call cops) rowss ->
        (N.of_nat (length (calls_rows rowss)) <= 2 ^ 32 - 2)%N -> (N.of_nat (bytes_of (calls_rows rowss)) < 2 ^ 32 - 1)%N ->
        exists accepted st oks, history (bin_call p (ci_nullable ci) 128) (mk_col [] [] 0%N (answers os)) rowss = Some (accepted, st, oks)
          /\ cl_fates st = [] /\ rs = map verdict oks
          /\ Forall2 (fun a b => fst b = fst a /\ layout p (ci_nullable ci) (it_rows (snd a)) (it_extra (snd a)) (snd b)) accepted (taken os)
  | Snappy => snappy_story cops os rs
  | _ => False
  end.

(** Bytes that a reader understands as the metadata of a segment with the columns
    [closed]. *)
Definition metadata_of (info : segment_info) (closed : list column_info) (bytes : list N) : Prop :=
  exists s lays,
    read_metadata bytes = Some (mkmeta (Some s) lays)
    /\ sm_segment_id s = si_segment_id info /\ sm_database_name s = si_database_name info
    /\ sm_table_name s = si_table_name info /\ sm_shard_id s = si_shard_id info /\ sm_num_rows s = si_num_rows info
    /\ entries column_entry closed (sm_columns_meta s) /\ entries layout_entry closed lays.

(** Closing a segment whose index file is at position [pos]: metadata, position
    and a flush for the index file, then a flush for the data file; the first
    failure ends it. *)
Definition close_story (info : segment_info) (closed : list column_info) (pos : N) (its dts : list (writer_op * result unit)) (r : result unit) : Prop :=
  exists meta, metadata_of info closed meta /\ (
    (its = [(WBlock meta, Err)] /\ dts = [] /\ r = Err)
    \/ (its = [(WBlock meta, Ok tt); (WBlock (le_bytes 8 pos), Err)] /\ dts = [] /\ r = Err)
    \/ (its = [(WBlock meta, Ok tt); (WBlock (le_bytes 8 pos), Ok tt); (WFlush, Err)] /\ dts = [] /\ r = Err)
    \/ (its = [(WBlock meta, Ok tt); (WBlock (le_bytes 8 pos), Ok tt); (WFlush, Ok tt)] /\ dts = [(WFlush, r)])).

(** A whole history, from positions [pd] and [pi] of the two files, a block index
    with entries [ent] and closed columns [closed]: calls to the data file and to
    the index file with their results, the reports and the entries of the block
    index in the end. *)
Inductive seg_story (p : profile) (info : segment_info) : N -> N -> list (N * N) -> list column_info -> list seg_op ->
  list (writer_op * result unit) -> list (writer_op * result unit) -> list (result unit) -> list (N * N) -> Prop :=
| ss_nil pd pi ent closed : seg_story p info pd pi ent closed [] [] [] [] ent
| ss_refused pd pi ent closed ci cops ops dts its rs ent' :
    ci_encoding ci <> Raw -> ci_encoding ci <> Snappy -> seg_story p info pd pi [] closed ops dts its rs ent' ->
    seg_story p info pd pi ent closed (SColumn ci cops :: ops) dts its (Err :: rs) ent'
| ss_column pd pi ent closed ci cops ops os crs dts its rs ent' :
    column_story p ci cops os crs ->
    seg_story p info (pd + size_of os) pi (entries_of pd os) (closed ++ closes_reported ci cops crs) ops dts its rs ent' ->
    seg_story p info pd pi ent closed (SColumn ci cops :: ops) (offer_ops os ++ dts) its (Ok tt :: crs ++ rs) ent'
| ss_close pd pi ent closed it ops dts its dts' its' r rs ent' :
    close_story info closed pi its dts r ->
    seg_story p info pd (pi + N.of_nat (length (blocks_of (map fst its)))) ent closed ops dts' its' rs ent' ->
    seg_story p info pd pi ent closed (SClose it :: ops) (dts ++ dts') (its ++ its') (r :: rs) ent'.

(** * Columns *)

Lemma fed_trace d f os : forall w wr bi w1 wr1 bi1 bs, opened d f w wr ->
  fed sink_write (w, wr, bi) os = ((w1, wr1, bi1), bs) -> bs = answers os ->
  writer_trace d f w wr (offer_ops os) w1 wr1 /\ extends f w w1 /\ opened d f w1 wr1
  /\ bi_row_id bi1 = bi_row_id bi ++ map fst (entries_of (wr_pos wr) os) /\ bi_offset bi1 = bi_offset bi ++ map snd (entries_of (wr_pos wr) os)
  /\ wr_pos wr1 = (wr_pos wr + size_of os)%N.
Proof.
  induction os as [|[[r b] ok] os IH]; intros w wr bi w1 wr1 bi1 bs O F E; cbn [fed] in F.
  - injection F as <- <- <- <-. unfold size_of. cbn. rewrite !app_nil_r, N.add_0_r. split; [constructor|]. split; [apply extends_refl|]. auto.
  - destruct (writer_write_block w wr b) as [[w0 wr0] r0] eqn:W. destruct (write_touch _ _ _ _ _ _ _ _ O W) as (X0 & O0 & P0 & _).
    assert (SW : sink_write (w, wr, bi) r b = ((w0, wr0, match r0 with Ok _ => index_block bi r (writer_pos wr0) | Err => bi end), r0)).
    { unfold sink_write. rewrite W. destruct r0 as [[]|]; reflexivity. }
    rewrite SW in F. cbn [fst snd] in F. destruct (fed sink_write _ os) as [[[w2 wr2] bi2] bs2] eqn:F2. cbn [fst snd] in F. injection F as <- <- <- <-.
    cbn [answers map snd] in E. injection E as EK E2. destruct (IH _ _ _ _ _ _ _ O0 F2 E2) as (T & X & O2 & R2 & F3 & P2).
    assert (r0 = verdict ok) as -> by (destruct r0 as [[]|]; subst ok; reflexivity).
    split; [cbn [offer_ops map fst snd]; econstructor; [cbn [writer_step]; exact W|exact T]|]. split; [eapply extends_trans; eassumption|]. split; [exact O2|].
    rewrite R2, F3, P2, P0. unfold writer_pos. rewrite P0. cbn [entries_of]. unfold size_of. cbn [map concat fst snd]. rewrite app_length.
    destruct ok; cbn [verdict index_block bi_row_id bi_offset app map fst snd]; rewrite <- ?app_assoc; (split; [reflexivity|]; split; [reflexivity|lia]).
Qed.

(** A raw column is its encoder, and the metadata changes. *)
Lemma column_raw p ci cops : forall w sg e, md_segment_meta (sg_meta sg) <> None ->
  match be_calls sink_write p e (map col_call cops) (w, sg_data sg, sg_block_index sg) with
  | Ret (_, (w1, dt, bi), rs) => exists meta, md_segment_meta meta <> None
      /\ column_run p w sg (mkcw ci (RawEnc e)) cops = Ret (w1, mksegment dt (sg_index sg) bi meta, rs)
  | Panic k => column_run p w sg (mkcw ci (RawEnc e)) cops = Panic k
  | NoFuel => column_run p w sg (mkcw ci (RawEnc e)) cops = NoFuel
  end.
Proof.
  induction cops as [|o cops IH]; intros w sg e M; cbn [map be_calls column_run].
  - exists (sg_meta sg). split; [exact M|]. destruct sg; reflexivity.
  - destruct o as [b|]; cbn [col_call column_step].
    + unfold column_write, bin_encode. cbn [cw_encoder cw_info]. destruct (be_encode sink_write p _ e b _) as [[[e1 [[w1 dt] bi]] r1]|k|]; cbn [bind]; [|reflexivity..].
      specialize (IH w1 (mksegment dt (sg_index sg) bi (sg_meta sg)) e1 M). cbn [sg_data sg_index sg_block_index sg_meta] in IH.
      destruct (be_calls sink_write p e1 _ _) as [[[e2 [[w2 dt2] bi2]] rs2]|k|]; cbn [bind]; [|rewrite IH; reflexivity..].
      destruct IH as (meta & MM & ->). exists meta. split; [exact MM|reflexivity].
    + unfold column_close, bin_flush. cbn [cw_encoder cw_info]. destruct (be_flush sink_write p e _) as [[[e1 [[w1 dt] bi]] r1]|k|]; cbn [bind]; [|reflexivity..].
      destruct (md_segment_meta (sg_meta sg)) as [sm|] eqn:EM; [|congruence]. cbn zeta.
      assert (Q : exists meta, md_segment_meta meta <> None /\
        match (match r1 with Ok _ => Ok EPlain | Err => Err end) with
        | Ok encoder_layout => Ret (w1, mksegment dt (sg_index sg) bi (mkmeta (Some (mksmeta (sm_segment_id sm) (sm_database_name sm) (sm_table_name sm) (sm_shard_id sm)
            (sm_compressed_size sm) (sm_uncompressed_size sm) (sm_num_rows sm) (hm_insert (ci_name ci) (column_meta_of ci) (sm_columns_meta sm))))
            (hm_insert (ci_name ci) (mkclayout (Some (bi_flush bi)) None (Some encoder_layout)) (md_columns_layout (sg_meta sg)))), mkcw ci (RawEnc e1), Ok tt)
        | Err => Ret (w1, mksegment dt (sg_index sg) bi (sg_meta sg), mkcw ci (RawEnc e1), Err)
        end = Ret (w1, mksegment dt (sg_index sg) bi meta, mkcw ci (RawEnc e1), r1)).
      { destruct r1 as [[]|]; [eexists; split; [|reflexivity]; cbn; discriminate|exists (sg_meta sg); split; [congruence|reflexivity]]. }
      destruct Q as (meta1 & M1 & ->). cbn [bind].
      specialize (IH w1 (mksegment dt (sg_index sg) bi meta1) e1 M1). cbn [sg_data sg_index sg_block_index sg_meta] in IH.
      destruct (be_calls sink_write p e1 _ _) as [[[e2 [[w2 dt2] bi2]] rs2]|k|]; cbn [bind]; [|rewrite IH; reflexivity..].
      destruct IH as (meta & MM & ->). exists meta. split; [exact MM|reflexivity].
Qed.

(** C55 in a segment: a raw column of a segment in any state, whatever the
    operating system does.  There are answers to the blocks it offers, those the
    writer gives, with which [bin_call] says what every call does. *)
Theorem C55_segment_column_exact : forall p w sg ci cops rowss, ci_encoding ci = Raw -> md_segment_meta (sg_meta sg) <> None ->
  Forall2 (call_holds (ci_nullable ci)) (map col_call cops) rowss ->
  (N.of_nat (length (calls_rows rowss)) <= 2 ^ 32 - 2)%N -> (N.of_nat (bytes_of (calls_rows rowss)) < 2 ^ 32 - 1)%N ->
  exists os, snd (fed sink_write (w, sg_data sg, bi_new) os) = answers os
    /\ match history (bin_call p (ci_nullable ci) 128) (mk_col [] [] 0%N (answers os)) rowss with
       | Some (accepted, st, oks) =>
           cl_fates st = []
           /\ Forall2 (fun a b => fst b = fst a /\ layout p (ci_nullable ci) (it_rows (snd a)) (it_extra (snd a)) (snd b)) accepted (taken os)
           /\ exists w1 sg1, seg_step p w sg (SColumn ci cops) = Ret (w1, sg1, Ok tt :: map verdict oks)
                /\ (w1, sg_data sg1, sg_block_index sg1) = fst (fed sink_write (w, sg_data sg, bi_new) os)
                /\ sg_index sg1 = sg_index sg /\ md_segment_meta (sg_meta sg1) <> None
       | None => is_panic (seg_step p w sg (SColumn ci cops))
       end.
Proof.
  intros p w sg ci cops rowss ER M HC HL HB.
  set (t := calls_tree p (be_new 128 (ci_nullable ci)) (map col_call cops)).
  destruct (replay sink_write t (w, sg_data sg, bi_new)) as (os & RP). exists os. destruct (RP [] []) as (R1 & R2 & R3). rewrite app_nil_r in R2. split; [exact R1|].
  assert (RS : be_calls scripted p (be_new 128 (ci_nullable ci)) (map col_call cops) (answers os, []) = runs scripted t (answers os, [])) by apply calls_runs.
  assert (RW : be_calls sink_write p (be_new 128 (ci_nullable ci)) (map col_call cops) (w, sg_data sg, bi_new) = runs sink_write t (w, sg_data sg, bi_new)) by apply calls_runs.
  unfold runs in RS, RW. rewrite R2 in RS.
  pose proof (C55_binary_history_exact p 128 (ci_nullable ci) (map col_call cops) rowss (answers os) ltac:(change (2 ^ 32)%N with 4294967296%N; lia) HC HL HB) as C.
  pose proof (column_raw p ci cops w (mksegment (sg_data sg) (sg_index sg) bi_new (sg_meta sg)) (be_new 128 (ci_nullable ci)) M) as CR.
  cbn [sg_data sg_index sg_block_index sg_meta] in CR.
  assert (ST : seg_step p w sg (SColumn ci cops) = let* r := column_run p w (mksegment (sg_data sg) (sg_index sg) bi_new (sg_meta sg)) (mkcw ci (RawEnc (be_new 128 (ci_nullable ci)))) cops in
    let '(w, sg, reports) := r in Ret (w, sg, Ok tt :: reports)).
  { cbn [seg_step]. unfold new_binary_column_writer. rewrite ER. reflexivity. }
  rewrite RW in CR. rewrite RS in C. clear RS RW. 
  destruct (history (bin_call p (ci_nullable ci) 128) _ rowss) as [[[a st] oks]|].
  - destruct C as (e & blocks & E & LY & _ & _). destruct (interp sink_write t _) as [[[e1 rs1] s1]|k|]; cbn [bind fst snd] in E; [|discriminate E..].
    injection E as <- <- <- ->. cbn [app] in LY. split; [reflexivity|]. split; [exact LY|]. specialize (R3 _ _ eq_refl). subst s1.
    cbn [bind fst snd] in CR. destruct (fst (fed sink_write _ os)) as [[w1 dt] bi]. destruct CR as (meta & MM & CR). rewrite ST, CR. cbn [bind].
    eexists _, _. split; [reflexivity|]. cbn [sg_data sg_index sg_block_index sg_meta]. auto.
  - destruct C as [k C]. destruct (interp sink_write t _) as [[[e1 rs1] s1]|k'|]; cbn [bind fst snd] in C; [discriminate C| |discriminate C].
    cbn [bind] in CR. rewrite ST, CR. eexists. reflexivity.
Qed.
Print Assumptions C55_segment_column_exact.

(** The write of the second block fails in the background; the writer rejects the
    third, and the fourth, offered by the close, is the next that is accepted.
    The block index has the identifiers that [bin_call] says. *)
Example C55_segment_column_witness :
  let rows := repeat (Some (repeat 7%N 44)) 4 in let calls := [Some rows; Some rows; Some rows; None] in
  match segment_new (mkworld [] [None; None; None; None; Some 0] 1000) ex_base ex_info with
  | (w1, Ok sg) =>
      md_segment_meta (sg_meta sg) <> None /\ ci_encoding ex_a = Raw
      /\ Forall2 (call_holds (ci_nullable ex_a)) (map col_call [CWrite ex_buf; CWrite ex_buf; CWrite ex_buf; CClose]) calls
      /\ match seg_step Debug w1 sg (SColumn ex_a [CWrite ex_buf; CWrite ex_buf; CWrite ex_buf; CClose]) with
         | Ret (_, sg1, rs) => rs = [Ok tt; Ok tt; Ok tt; Err; Ok tt] /\ bi_row_id (sg_block_index sg1) = [2; 5; 11]%N
         | _ => False end
      /\ match history (bin_call Debug false 128) (mk_col [] [] 0%N [true; true; false; true]) calls with
         | Some (accepted, st, oks) => map fst accepted = [2; 5; 11]%N /\ cl_fates st = [] /\ oks = [true; true; false; true]
         | None => False end
  | _ => False end.
Proof.
  cbn zeta. destruct (segment_new _ _ _) as [w1 [sg|]] eqn:N; vm_compute in N; [|discriminate N]. injection N as <- <-.
  split; [discriminate|]. split; [reflexivity|]. split; [|split; vm_compute; repeat split].
  assert (H : call_holds false (Some ex_buf) (Some (repeat (Some (repeat 7%N 44)) 4))) by (vm_compute; repeat split; repeat constructor).
  constructor; [exact H|constructor; [exact H|constructor; [exact H|constructor; [exact I|constructor]]]].
Qed.

(** * Whole segments *)

Lemma snappy_column d p fd ci cops : forall w sg w1 sg1 rs, opened d fd w (sg_data sg) -> md_segment_meta (sg_meta sg) <> None ->
  column_run p w sg (mkcw ci SnappyEnc) cops = Ret (w1, sg1, rs) ->
  exists os, snappy_story cops os rs /\ fed sink_write (w, sg_data sg, sg_block_index sg) os = ((w1, sg_data sg1, sg_block_index sg1), answers os)
    /\ sg_index sg1 = sg_index sg /\ md_segment_meta (sg_meta sg1) <> None.
Proof.
  induction cops as [|o cops IH]; intros w sg w1 sg1 rs O M H; cbn [column_run] in H.
  - injection H as <- <- <-. exists []. split; [split; reflexivity|]. split; [reflexivity|]. auto.
  - destruct o as [b|]; cbn [column_step] in H.
    + unfold column_write, bin_encode in H. cbn [cw_encoder cw_info] in H.
      destruct (sink_write (w, sg_data sg, sg_block_index sg) 43243%N snappy_data) as [[[w0 dt] bi] r0] eqn:SW. cbn [bind fst snd] in H.
      destruct (column_run p w0 _ _ cops) as [[[w2 sg2] rs2]|k|] eqn:R; cbn [bind] in H; try discriminate H. injection H as <- <- <-.
      assert (O0 : opened d fd w0 dt).
      { unfold sink_write in SW. destruct (writer_write_block w (sg_data sg) snappy_data) as [[wx wrx] rx] eqn:W. destruct (write_touch _ _ _ _ _ _ _ _ O W) as (_ & OX & _).
        destruct rx as [[]|]; injection SW as <- <- _ _; exact OX. }
      destruct (IH _ (mksegment dt (sg_index sg) bi (sg_meta sg)) _ _ _ O0 M R) as (os & S1 & F1 & I1 & M1). cbn [sg_data sg_index sg_block_index sg_meta] in *.
      exists ((43243%N, snappy_data, match r0 with Ok _ => true | Err => false end) :: os). split.
      { cbn [snappy_story]. eexists _, os, rs2. split; [reflexivity|]. split; [destruct r0 as [[]|]; reflexivity|exact S1]. }
      split; [|auto]. cbn [fed]. rewrite SW. cbn [fst snd]. rewrite F1. reflexivity.
    + unfold column_close, bin_flush in H. cbn [cw_encoder cw_info bind] in H. destruct (md_segment_meta (sg_meta sg)) as [sm|] eqn:EM; [|discriminate H]. cbn zeta in H. cbn [bind] in H.
      destruct (column_run p w _ _ cops) as [[[w2 sg2] rs2]|k|] eqn:R; cbn [bind] in H; try discriminate H. injection H as <- <- <-.
      match type of R with column_run p w ?sg0 _ _ = _ => destruct (IH w sg0 _ _ _ O ltac:(cbn; discriminate) R) as (os & S1 & F1 & I1 & M1) end.
      cbn [sg_data sg_index sg_block_index sg_meta] in *. exists os. split; [cbn [snappy_story]; eexists; split; [reflexivity|exact S1]|]. auto.
Qed.

Lemma raw_column p ci cops w sg w1 sg1 rs : ci_encoding ci = Raw -> md_segment_meta (sg_meta sg) <> None -> sg_block_index sg = bi_new ->
  column_run p w sg (mkcw ci (RawEnc (be_new 128 (ci_nullable ci)))) cops = Ret (w1, sg1, rs) ->
  exists os, column_story p ci cops os rs /\ fed sink_write (w, sg_data sg, sg_block_index sg) os = ((w1, sg_data sg1, sg_block_index sg1), answers os)
    /\ sg_index sg1 = sg_index sg /\ md_segment_meta (sg_meta sg1) <> None.
Proof.
  intros ER M B0 H. set (t := calls_tree p (be_new 128 (ci_nullable ci)) (map col_call cops)).
  destruct (replay sink_write t (w, sg_data sg, sg_block_index sg)) as (os & RP). exists os. destruct (RP [] []) as (R1 & R2 & R3). rewrite app_nil_r in R2.
  assert (RS : be_calls scripted p (be_new 128 (ci_nullable ci)) (map col_call cops) (answers os, []) = runs scripted t (answers os, [])) by apply calls_runs.
  assert (RW : be_calls sink_write p (be_new 128 (ci_nullable ci)) (map col_call cops) (w, sg_data sg, sg_block_index sg) = runs sink_write t (w, sg_data sg, sg_block_index sg)) by apply calls_runs.
  unfold runs in RS, RW. rewrite R2 in RS. clear R2 RP.
  pose proof (column_raw p ci cops w sg (be_new 128 (ci_nullable ci)) M) as CR. rewrite RW in CR. clear RW.
  destruct (interp sink_write t _) as [[[e1 rs1] s1]|k|]; cbn [bind fst snd] in CR, RS; [|rewrite CR in H; discriminate H..].
  specialize (R3 _ _ eq_refl). destruct s1 as [[w0 dt] bi]. destruct CR as (meta & MM & CR). rewrite CR in H. injection H as <- <- <-.
  cbn [sg_data sg_index sg_block_index sg_meta app] in *. split.
  - unfold column_story. rewrite ER. intros rowss HC HL HB.
    pose proof (C55_binary_history_exact p 128 (ci_nullable ci) (map col_call cops) rowss (answers os) ltac:(change (2 ^ 32)%N with 4294967296%N; lia) HC HL HB) as C.
    rewrite RS in C. destruct (history (bin_call p (ci_nullable ci) 128) _ rowss) as [[[a st] oks]|]; [|destruct C as [k C]; discriminate C].
    destruct C as (e & blocks & E & LY & _). injection E as _ EF <- ER1. exists a, st, oks. auto.
  - split; [|auto]. destruct (fed sink_write _ os) as [s2 bs] eqn:F. cbn [fst snd] in *. subst. reflexivity.
Qed.

(** The metadata of a column depends on the reports only. *)
Lemma column_meta p info cops : forall w sg cw w1 sg1 rs closed, meta_ok info closed (sg_meta sg) -> enc_ok cw ->
  column_run p w sg cw cops = Ret (w1, sg1, rs) -> meta_ok info (closed ++ closes_reported (cw_info cw) cops rs) (sg_meta sg1).
Proof.
  induction cops as [|o cops IH]; intros w sg cw w1 sg1 rs closed M EO H; cbn [column_run] in H.
  - injection H as <- <- <-. cbn [closes_reported]. rewrite app_nil_r. exact M.
  - destruct (column_step p w sg cw o) as [[[[w0 sg0] cw0] res]|k|] eqn:E; cbn [bind] in H; try discriminate H.
    destruct (column_run p w0 sg0 cw0 cops) as [[[w2 sg2] more]|k|] eqn:R; cbn [bind] in H; try discriminate H. injection H as <- <- <-.
    assert (Q : meta_ok info (closed ++ closes_reported (cw_info cw) [o] [res]) (sg_meta sg0) /\ enc_ok cw0 /\ cw_info cw0 = cw_info cw).
    { destruct o as [b|]; cbn [column_step] in E.
      - unfold column_write in E. destruct (bin_encode sink_write p (cw_encoder cw) b _) as [[[e [[wx dt] bi]] r]|k|] eqn:EE; cbn [bind] in E; try discriminate E.
        injection E as <- <- <- ->. destruct (bin_encode_feed _ _ _ _ _ _ _ _ EE) as (L & _).
        replace (closes_reported (cw_info cw) [CWrite b] [res]) with (@nil column_info) by (destruct res; reflexivity). rewrite app_nil_r.
        split; [exact M|]. split; [unfold enc_ok in *; cbn [cw_info cw_encoder]; congruence|reflexivity].
      - unfold column_close in E. destruct (bin_flush sink_write p (cw_encoder cw) _) as [[[e [[wx dt] bi]] r]|k|] eqn:EE; cbn [bind] in E; try discriminate E.
        destruct (bin_flush_feed _ _ _ _ _ _ _ EE) as (L & bl & r0 & F & -> & _). destruct r0 as [[]|].
        + destruct M as (cols & lays & EM & DC & DL). rewrite EM in E. cbn [md_segment_meta md_columns_layout] in E. injection E as <- <- <- <-.
          split; [|split; [unfold enc_ok in *; cbn [cw_info cw_encoder]; congruence|reflexivity]].
          cbn [closes_reported sg_meta]. eexists _, _. split; [reflexivity|]. split; [apply describes_insert, DC|].
          unfold bi_flush. unfold enc_ok in EO. rewrite EO. apply (describes_insert layout_of closed lays (cw_info cw) DL).
        + injection E as <- <- <- <-. split; [|split; [unfold enc_ok in *; cbn [cw_info cw_encoder]; congruence|reflexivity]].
          cbn [closes_reported]. rewrite app_nil_r. exact M. }
    destruct Q as (M0 & EO0 & CI). pose proof (IH _ _ _ _ _ _ _ M0 EO0 R) as Q. rewrite CI, <- app_assoc in Q.
    replace (closes_reported (cw_info cw) (o :: cops) (res :: more))
      with (closes_reported (cw_info cw) [o] [res] ++ closes_reported (cw_info cw) cops more) by (destruct o, res; reflexivity).
    exact Q.
Qed.

Lemma meta_ok_bytes info closed m : meta_ok info closed m -> metadata_of info closed (encode_metadata m).
Proof.
  intros M. pose proof (meta_ok_readable _ _ _ M) as R. destruct M as (cols & lays & -> & DC & DL). eexists _, lays. split; [exact R|].
  cbn [sm_segment_id sm_database_name sm_table_name sm_shard_id sm_num_rows sm_columns_meta].
  split; [reflexivity|]. split; [reflexivity|]. split; [reflexivity|]. split; [reflexivity|]. split; [reflexivity|].
  split; eapply describes_entries; try eassumption; intros ci; [apply column_meta_entry|reflexivity].
Qed.

Lemma close_trace d fd fi info closed w sg it w1 sg1 r : fd <> fi -> both_open d fd fi w sg -> meta_ok info closed (sg_meta sg) ->
  (forall l, Permutation l (it_columns it l)) /\ (forall l, Permutation l (it_layouts it l)) -> segment_close w sg it = (w1, sg1, r) ->
  exists its dts, close_story info closed (wr_pos (sg_index sg)) its dts r
    /\ writer_trace d fd w (sg_data sg) dts w1 (sg_data sg1) /\ writer_trace d fi w (sg_index sg) its w1 (sg_index sg1)
    /\ both_open d fd fi w1 sg1 /\ sg_block_index sg1 = sg_block_index sg /\ sg_meta sg1 = sg_meta sg.
Proof.
  intros NE (OD & OI) (cols & lays & EM & DC & DL) (OC & OL) H. unfold segment_close in H. cbn zeta in H.
  match type of H with context [encode_metadata ?m] => assert (MD : metadata_of info closed (encode_metadata m)); [|set (meta := encode_metadata m) in *] end.
  { rewrite EM. cbn [md_segment_meta md_columns_layout sm_segment_id sm_database_name sm_table_name sm_shard_id sm_compressed_size sm_uncompressed_size sm_num_rows sm_columns_meta].
    apply meta_ok_bytes. exists (it_columns it cols), (it_layouts it lays). split; [reflexivity|]. split; eapply describes_perm; eauto. }
  clearbody meta.
  assert (OT : forall wx, extends fi w wx -> forall tr wy wr, writer_trace d fd wx (sg_data sg) tr wy wr -> writer_trace d fd w (sg_data sg) tr wy wr).
  { intros wx X tr wy wr T. eapply wt_other; [destruct X as (X & _); exact X|eapply extends_dir; [exact X|congruence]|exact T]. }
  destruct (writer_write_block w (sg_index sg) meta) as [[wa ia] [[]|]] eqn:Wa; destruct (write_touch _ _ _ _ _ _ _ _ OI Wa) as (Xa & Oa & Pa & _).
  2:{ injection H as <- <- <-. exists [(WBlock meta, Err)], []. cbn [sg_data sg_index sg_block_index sg_meta]. split; [exists meta; split; [exact MD|]; auto|].
      split; [apply (OT _ Xa); constructor|]. split; [econstructor; [exact Wa|constructor]|]. split; [|auto]. split; [eapply opened_other; [exact Xa|congruence|exact OD]|exact Oa]. }
  destruct (writer_write_block wa ia (le_bytes 8 (writer_pos (sg_index sg)))) as [[wb ib] [[]|]] eqn:Wb; destruct (write_touch _ _ _ _ _ _ _ _ Oa Wb) as (Xb & Ob & Pb & _);
    pose proof (extends_trans _ _ _ _ Xa Xb) as Xab.
  2:{ injection H as <- <- <-. eexists _, []. cbn [sg_data sg_index sg_block_index sg_meta]. split; [exists meta; split; [exact MD|]; right; left; auto|].
      split; [apply (OT _ Xab); constructor|]. split; [econstructor; [exact Wa|econstructor; [exact Wb|constructor]]|]. split; [|auto].
      split; [eapply opened_other; [exact Xab|congruence|exact OD]|exact Ob]. }
  destruct (writer_flush wb ib) as [[wc ic] [[]|]] eqn:Wc; destruct (flush_touch _ _ _ _ _ _ _ Ob Wc) as (Xc & Oc & Pc & _);
    pose proof (extends_trans _ _ _ _ Xab Xc) as Xabc.
  2:{ injection H as <- <- <-. eexists _, []. cbn [sg_data sg_index sg_block_index sg_meta]. split; [exists meta; split; [exact MD|]; right; right; left; auto|].
      split; [apply (OT _ Xabc); constructor|]. split; [econstructor; [exact Wa|econstructor; [exact Wb|econstructor; [exact Wc|constructor]]]|]. split; [|auto].
      split; [eapply opened_other; [exact Xabc|congruence|exact OD]|exact Oc]. }
  assert (ODc : opened d fd wc (sg_data sg)) by (eapply opened_other; [exact Xabc|congruence|exact OD]).
  destruct (writer_flush wc (sg_data sg)) as [[we de] re] eqn:We. destruct (flush_touch _ _ _ _ _ _ _ ODc We) as (Xe & Oe & _).
  injection H as <- <- <-. eexists _, _. cbn [sg_data sg_index sg_block_index sg_meta]. split; [exists meta; split; [exact MD|]; right; right; right; auto|].
  split; [apply (OT _ Xabc); econstructor; [exact We|constructor]|].
  split; [econstructor; [exact Wa|econstructor; [exact Wb|econstructor; [exact Wc|eapply wt_other; [destruct Xe as (Xe' & _); exact Xe'|eapply extends_dir; [exact Xe|exact NE]|constructor]]]]|].
  split; [|auto]. split; [exact Oe|eapply opened_other; [exact Xe|exact NE|exact Oc]].
Qed.

Lemma seg_traces d p fd fi info : fd <> fi -> forall ops w sg ent closed w1 sg1 rs, both_open d fd fi w sg -> meta_ok info closed (sg_meta sg) -> orders_ok ops ->
  bi_row_id (sg_block_index sg) = map fst ent -> bi_offset (sg_block_index sg) = map snd ent ->
  seg_run p w sg ops = Ret (w1, sg1, rs) ->
  exists dts its ent', seg_story p info (wr_pos (sg_data sg)) (wr_pos (sg_index sg)) ent closed ops dts its rs ent'
    /\ writer_trace d fd w (sg_data sg) dts w1 (sg_data sg1) /\ writer_trace d fi w (sg_index sg) its w1 (sg_index sg1)
    /\ bi_row_id (sg_block_index sg1) = map fst ent' /\ bi_offset (sg_block_index sg1) = map snd ent'.
Proof.
  intros NE. induction ops as [|o ops IH]; intros w sg ent closed w1 sg1 rs O M OO B1 B2 H; cbn [seg_run] in H.
  - injection H as <- <- <-. exists [], [], ent. repeat split; try assumption; constructor.
  - destruct (seg_step p w sg o) as [[[w0 sg0] r0]|k|] eqn:E; cbn [bind] in H; try discriminate H.
    destruct (seg_run p w0 sg0 ops) as [[[w2 sg2] more]|k|] eqn:R; cbn [bind] in H; try discriminate H. injection H as <- <- <-.
    apply Forall_cons_iff in OO. destruct OO as [OO1 OO].
    assert (MS : md_segment_meta (sg_meta sg) <> None) by (destruct M as (cols & lays & -> & _); discriminate).
    destruct o as [ci cops|it]; cbn [seg_step] in E.
    + unfold new_binary_column_writer in E.
      assert (COL : forall os crs, fed sink_write (w, sg_data sg, bi_new) os = ((w0, sg_data sg0, sg_block_index sg0), answers os) ->
        sg_index sg0 = sg_index sg -> meta_ok info (closed ++ closes_reported ci cops crs) (sg_meta sg0) -> column_story p ci cops os crs -> r0 = Ok tt :: crs ->
        exists dts its ent', seg_story p info (wr_pos (sg_data sg)) (wr_pos (sg_index sg)) ent closed (SColumn ci cops :: ops) dts its (r0 ++ more) ent'
          /\ writer_trace d fd w (sg_data sg) dts w2 (sg_data sg2) /\ writer_trace d fi w (sg_index sg) its w2 (sg_index sg2)
          /\ bi_row_id (sg_block_index sg2) = map fst ent' /\ bi_offset (sg_block_index sg2) = map snd ent').
      { intros os crs F EI M0 CS ->. destruct O as [OD OI]. destruct (fed_trace d fd os _ _ _ _ _ _ _ OD F eq_refl) as (T & X & OD0 & RI & RO & PP).
        cbn [bi_new bi_row_id bi_offset app] in RI, RO.
        destruct (IH w0 sg0 (entries_of (wr_pos (sg_data sg)) os) (closed ++ closes_reported ci cops crs) w2 sg2 more) as (dts & its & ent' & SS & TD & TI & E1 & E2);
          [split; [exact OD0|rewrite EI; eapply opened_other; [exact X|exact NE|exact OI]]|exact M0|exact OO|exact RI|exact RO|exact R|].
        rewrite PP, EI in SS. rewrite EI in TI. exists (offer_ops os ++ dts), its, ent'. split; [cbn [app]; eapply ss_column; eassumption|].
        split; [eapply trace_app; eassumption|]. split; [eapply wt_other; [destruct X as (X' & _); exact X'|eapply extends_dir; [exact X|exact NE]|exact TI]|]. auto. }
      destruct (ci_encoding ci) eqn:EC; cbn [new_binary_encoder] in E;
        try (injection E as <- <- <-; destruct (IH w (mksegment (sg_data sg) (sg_index sg) (bi_clear (sg_block_index sg)) (sg_meta sg)) [] closed _ _ _ O M OO eq_refl eq_refl R) as (dts & its & ent' & SS & TD & TI & E1 & E2);
             cbn [sg_data sg_index sg_block_index sg_meta] in *; exists dts, its, ent'; split; [cbn [app]; apply ss_refused; [congruence|congruence|exact SS]|]; auto).
      * destruct (column_run p w _ _ cops) as [[[wx sx] rx]|k|] eqn:CR; cbn [bind] in E; try discriminate E. injection E as <- <- <-.
        destruct (raw_column p ci cops w (mksegment (sg_data sg) (sg_index sg) (bi_clear (sg_block_index sg)) (sg_meta sg)) _ _ _ EC MS eq_refl CR) as (os & CS & F & EI & _). cbn [sg_data sg_index sg_block_index sg_meta] in *.
        eapply (COL os rx); auto. refine (column_meta p info cops _ _ _ _ _ _ _ _ _ CR); [exact M|unfold enc_ok; cbn [cw_info cw_encoder]; rewrite EC; reflexivity].
      * destruct (column_run p w _ _ cops) as [[[wx sx] rx]|k|] eqn:CR; cbn [bind] in E; try discriminate E. injection E as <- <- <-.
        destruct (snappy_column d p fd ci cops w (mksegment (sg_data sg) (sg_index sg) (bi_clear (sg_block_index sg)) (sg_meta sg)) _ _ _ (proj1 O) MS CR) as (os & CS & F & EI & _).
        cbn [sg_data sg_index sg_block_index sg_meta] in *.
        eapply (COL os rx); auto; [refine (column_meta p info cops _ _ _ _ _ _ _ _ _ CR); [exact M|unfold enc_ok; cbn [cw_info cw_encoder]; rewrite EC; reflexivity]|]. unfold column_story. rewrite EC. exact CS.
    + destruct (segment_close w sg it) as [[wc sgc] r] eqn:C. injection E as <- <- <-.
      destruct (close_trace d fd fi info closed _ _ _ _ _ _ NE O M OO1 C) as (its & dts & CS & TD & TI & O1 & EB & EM).
      destruct (IH wc sgc ent closed w2 sg2 more) as (dts' & its' & ent' & SS & TD' & TI' & E1 & E2); [exact O1|rewrite EM; exact M|exact OO|congruence|congruence|exact R|].
      pose proof (trace_pos _ _ _ _ _ _ _ TI) as PI. pose proof (trace_pos _ _ _ _ _ _ _ TD) as PD. unfold writer_pos in PI, PD.
      assert (ED : blocks_of (map fst dts) = []) by (destruct CS as (meta & _ & [(_ & -> & _)|[(_ & -> & _)|[(_ & -> & _)|(_ & ->)]]]); reflexivity).
      rewrite ED in PD. cbn [length] in PD. rewrite N.add_0_r in PD. rewrite PI, PD in SS.
      exists (dts ++ dts'), (its ++ its'), ent'. split; [cbn [app]; eapply ss_close; eassumption|]. split; [eapply trace_app; eassumption|]. split; [eapply trace_app; eassumption|]. auto.
Qed.

(** C73, C75.  After any history of a segment, with any failures, the files hold
    the parts of the blocks written, in order, that [left_of] allows for the
    results of the calls; which calls were made, what the caller was told and what
    the block index contains follows from the answers of the operating system. *)
Theorem C73_segment_exact : forall d p w base info w1 sg ops w2 sg2 rs,
  0 < wd_max w -> is_id (si_segment_id info) -> segment_new w base info = (w1, Ok sg) ->
  orders_ok ops -> seg_run p w1 sg ops = Ret (w2, sg2, rs) ->
  exists dts its ent dparts iparts,
    seg_story p info 13 12 [] [] ops dts its rs ent
    /\ left_of (map fst ((WBlock data_file_signature, Ok tt) :: dts)) (map snd ((WBlock data_file_signature, Ok tt) :: dts)) dparts
    /\ directory_after d (wd_log w2) (data_path base (si_segment_id info)) = Some (concat dparts)
    /\ left_of (map fst ((WBlock index_file_signature, Ok tt) :: its)) (map snd ((WBlock index_file_signature, Ok tt) :: its)) iparts
    /\ directory_after d (wd_log w2) (index_path base (si_segment_id info)) = Some (concat iparts)
    /\ bi_row_id (sg_block_index sg2) = map fst ent /\ bi_offset (sg_block_index sg2) = map snd ent.
Proof.
  intros d p w base info w1 sg ops w2 sg2 rs M ID H OO R. destruct (C49_distinct base _ _ ID ID) as (_ & _ & NE).
  set (fd := data_path base (si_segment_id info)) in *. set (fi := index_path base (si_segment_id info)) in *.
  unfold segment_new in H. fold fd fi in H.
  destruct (writer_new w fi) as [wa [ix|]] eqn:Ni; [|discriminate H].
  destruct (writer_new_inv d _ _ _ _ Ni) as (Ma & TPi & Xi & Bi & Pi & Hi & _).
  destruct (writer_new wa fd) as [wb [dt|]] eqn:Nd; [|discriminate H].
  destruct (writer_new_inv d _ _ _ _ Nd) as (Mb & TPd & Xd & Bd & Pd & Hd & _).
  assert (Hib : holds d wb fi []).
  { unfold holds in *. unfold writer_new, tk_create in Nd. destruct (next_fate wa) as [fate w0] eqn:NF. destruct (next_fate_inv _ _ _ NF) as (HL & _).
    destruct fate; inversion Nd; subst. cbn [effect wd_log]. rewrite HL, directory_after_app, directory_after_other; [exact Hi|]. repeat constructor. exact NE. }
  assert (Mb' : 0 < wd_max wb) by lia.
  unfold write_headers in H. cbn [sg_index sg_data sg_block_index sg_meta] in H.
  destruct (writer_write_block wb ix index_file_signature) as [[wc ic] [[]|]] eqn:Wc; [|discriminate H].
  assert (Oi : opened d fi wb ix) by (split; [exact Mb'|]; split; [exact TPi|]; exists []; exact Hib).
  destruct (write_touch _ _ _ _ _ _ _ _ Oi Wc) as (Xc & Oc & Pc & _).
  assert (Od : opened d fd wc dt) by (eapply opened_other; [exact Xc|congruence|]; split; [exact Mb'|]; split; [exact TPd|]; exists []; exact Hd).
  destruct (writer_write_block wc dt data_file_signature) as [[we de] [[]|]] eqn:We; [|discriminate H].
  destruct (write_touch _ _ _ _ _ _ _ _ Od We) as (Xe & Oe & Pe & _). injection H as <- <-.
  match type of R with seg_run p _ ?s _ = _ =>
    assert (BO : both_open d fd fi we s) by (split; [exact Oe|eapply opened_other; [exact Xe|exact NE|exact Oc]]);
    assert (MO : meta_ok info [] (sg_meta s)) by (exists [], []; split; [reflexivity|]; split; (split; [constructor|reflexivity]));
    destruct (seg_traces d p fd fi info NE ops we s [] [] _ _ _ BO MO OO eq_refl eq_refl R) as (dts & its & ent & SS & TD & TI & E1 & E2) end.
  cbn [sg_data sg_index sg_block_index sg_meta] in *.
  rewrite Pe, Pd, Pc, Pi in SS. change (0 + N.of_nat (length data_file_signature))%N with 13%N in SS. change (0 + N.of_nat (length index_file_signature))%N with 12%N in SS.
  assert (TD' : writer_trace d fd wb dt ((WBlock data_file_signature, Ok tt) :: dts) w2 (sg_data sg2)).
  { eapply wt_other; [destruct Xc as (Xc' & _); exact Xc'|eapply extends_dir; [exact Xc|congruence]|]. econstructor; [exact We|exact TD]. }
  assert (TI' : writer_trace d fi wb ix ((WBlock index_file_signature, Ok tt) :: its) w2 (sg_index sg2)).
  { econstructor; [exact Wc|]. eapply wt_other; [destruct Xe as (Xe' & _); exact Xe'|eapply extends_dir; [exact Xe|exact NE]|exact TI]. }
  destruct (left_of_trace _ _ _ _ _ _ _ TD' [] Mb' TPd Hd ltac:(congruence)) as (kd & ld & dparts & Ed & _ & Fd & Ld).
  destruct (left_of_trace _ _ _ _ _ _ _ TI' [] Mb' TPi Hib ltac:(congruence)) as (ki & li & iparts & Ei & _ & Fi & Li).
  unfold pending in Ed, Ei. rewrite Bd in Ed. rewrite Bi in Ei.
  symmetry in Ed, Ei. apply app_eq_nil in Ed. apply app_eq_nil in Ei. destruct Ed as [-> ->], Ei as [-> ->]. cbn [app] in Fd, Fi.
  exists dts, its, ent, dparts, iparts. split; [exact SS|]. split; [exact Ld|]. split; [exact Fd|]. split; [exact Li|]. split; [exact Fi|]. auto.
Qed.
Print Assumptions C73_segment_exact.

(** Of three blocks of column "b" the first is lost in the background, which the
    writer tells when it rejects the second; the third arrives, at the position of
    the first.  The index has entries for the first and the third.  The close of
    the column and that of the segment succeed. *)
Example C73_segment_witness :
  let ops := [SColumn ex_b [CWrite ex_buf; CWrite ex_buf; CWrite ex_buf; CClose]; SClose ex_it] in
  let snappy := [115; 110; 97; 112; 112; 121]%N in
  let os := [(43243, snappy, true); (43243, snappy, false); (43243, snappy, true)]%N in
  let dts := offer_ops os ++ [(WFlush, Ok tt)] in
  let dparts := [data_file_signature; []; []; snappy] in
  orders_ok ops
  /\ exists meta,
    let its := [(WBlock meta, Ok tt); (WBlock (le_bytes 8 12), Ok tt); (WFlush, Ok tt)] in
    let iparts := [index_file_signature; meta; le_bytes 8 12] in
    seg_story Debug ex_info 13 12 [] [] ops dts its [Ok tt; Ok tt; Err; Ok tt; Ok tt; Ok tt] [(43243, 19); (43243, 31)]%N
    /\ left_of (map fst ((WBlock data_file_signature, Ok tt) :: dts)) (map snd ((WBlock data_file_signature, Ok tt) :: dts)) dparts
    /\ left_of (map fst ((WBlock index_file_signature, Ok tt) :: its)) (map snd ((WBlock index_file_signature, Ok tt) :: its)) iparts
    /\ match run_from Debug (mkworld [] [None; None; None; Some 0] 50) ex_base ex_info ops with
       | Some (w, sg, rs) =>
           rs = [Ok tt; Ok tt; Err; Ok tt; Ok tt; Ok tt]
           /\ directory_after (fun _ => None) (wd_log w) (data_path ex_base (si_segment_id ex_info)) = Some (concat dparts)
           /\ directory_after (fun _ => None) (wd_log w) (index_path ex_base (si_segment_id ex_info)) = Some (concat iparts)
           /\ bi_row_id (sg_block_index sg) = [43243; 43243]%N /\ bi_offset (sg_block_index sg) = [19; 31]%N
       | None => False end.
Proof.
  cbn zeta. split; [repeat constructor; intros l; cbn; try apply Permutation_rev; apply Permutation_refl|].
  set (m := mkmeta (Some (mksmeta (si_segment_id ex_info) (si_database_name ex_info) (si_table_name ex_info) (si_shard_id ex_info) 0 0 (si_num_rows ex_info)
              (hm_insert (ci_name ex_b) (column_meta_of ex_b) []))) (hm_insert (ci_name ex_b) (layout_of ex_b) [])).
  assert (MO : meta_ok ex_info [ex_b] m).
  { exists (hm_insert (ci_name ex_b) (column_meta_of ex_b) []), (hm_insert (ci_name ex_b) (layout_of ex_b) []). split; [reflexivity|].
    split; apply (describes_insert _ [] []); split; [constructor|reflexivity|constructor|reflexivity]. }
  apply meta_ok_bytes in MO. exists (encode_metadata m). split; [|split; [|split]].
  - apply (ss_column _ _ 13 12 [] [] ex_b _ _ _ [Ok tt; Err; Ok tt; Ok tt] [(WFlush, Ok tt)] _ [Ok tt]).
    + cbn. exists true. do 2 eexists. split; [reflexivity|]. split; [reflexivity|]. exists false. do 2 eexists. split; [reflexivity|]. split; [reflexivity|].
      exists true. do 2 eexists. split; [reflexivity|]. split; [reflexivity|]. eexists. split; [reflexivity|]. split; reflexivity.
    + refine (ss_close _ _ _ 12 _ _ _ [] [(WFlush, Ok tt)] [_; _; _] [] [] (Ok tt) [] _ _ (ss_nil _ _ _ _ _ _)).
      exists (encode_metadata m). split; [exact MO|]. right; right; right. split; reflexivity.
  - cbn. split; [exists []; auto|]. split; [exists [115; 110; 97; 112; 112; 121]%N; split; [reflexivity|]; right; right; discriminate|].
    split; [exists [115; 110; 97; 112; 112; 121]%N; auto|]. split; [exists []; auto|]. exact I.
  - cbn [map fst snd left_of]. split; [exists []; auto|]. split; [exists []; rewrite app_nil_r; auto|]. split; [exists []; rewrite app_nil_r; auto|]. exact I.
  - vm_compute. repeat split.
Qed.
