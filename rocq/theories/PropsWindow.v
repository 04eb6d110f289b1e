(** C54: every segment has a moment at which a crash leaves the index and loses
    the data. *)
From Verif Require Import Base Buffers Sink PrimEnc BinEnc Io SpecIo IoProofs PropsIo Metadata Proto SpecProto ProtoProofs ReadBlock
  BlockProofs Names PropsNames Segment SpecSegment SegmentProofs SegmentRunProofs PropsSegment PropsSegmentEx PropsSegmentRef PropsCrash.
From Coq Require Import Permutation.
Open Scope nat_scope.

(** * Only [sync] syncs *)

Definition no_sync (e : fs_event) : Prop := forall f, e <> FSync f.
Definition quiet (w w' : world) : Prop := exists more, wd_log w' = wd_log w ++ more /\ Forall no_sync more.

Lemma quiet_refl w : quiet w w.
Proof. exists []. rewrite app_nil_r. split; [reflexivity|constructor]. Qed.
Lemma quiet_trans a b c : quiet a b -> quiet b c -> quiet a c.
Proof. intros (m & L & F) (m' & L' & F'). exists (m ++ m'). rewrite L', L, app_assoc. split; [reflexivity|]. apply Forall_app. auto. Qed.
Lemma quiet_event w e : no_sync e -> quiet w (effect w e).
Proof. intros H. exists [e]. split; [reflexivity|]. constructor; [exact H|constructor]. Qed.
Lemma next_fate_log w x w' : next_fate w = (x, w') -> wd_log w' = wd_log w.
Proof. unfold next_fate. destruct (wd_plan w); intros E; injection E as _ <-; reflexivity. Qed.
Lemma quiet_log a b c : wd_log b = wd_log a -> quiet b c -> quiet a c.
Proof. intros E (m & L & F). exists m. rewrite L, E. auto. Qed.

Lemma tk_background_quiet w f c w' r : tk_background w f c = (w', r) -> quiet w w'.
Proof.
  unfold tk_background. destruct (next_fate w) as [[k|] w1] eqn:E; apply next_fate_log in E; intros X; injection X as <- _;
    (eapply quiet_log; [exact E|]); apply quiet_event; intros g; discriminate.
Qed.
Lemma tk_wait_quiet w f w' f' r : tk_wait w f = (w', f', r) -> quiet w w'.
Proof.
  unfold tk_wait. destruct (tf_busy f) as [c|]; [|intros X; injection X as <- _ _; apply quiet_refl].
  destruct (tk_background w (tf_path f) c) as [w1 r1] eqn:E. intros X. injection X as <- _ _. eapply tk_background_quiet, E.
Qed.
Lemma tk_write_quiet w f src w' f' r : tk_write w f src = (w', f', r) -> quiet w w'.
Proof.
  unfold tk_write. destruct (tf_err f); [intros X; injection X as <- _ _; apply quiet_refl|].
  destruct (tk_wait w f) as [[w1 f1] [[]|]] eqn:E; apply tk_wait_quiet in E; intros X; injection X as <- _ _; exact E.
Qed.
Lemma tk_write_all_quiet n : forall w f src w' f' r, tk_write_all n w f src = (w', f', r) -> quiet w w'.
Proof.
  induction n as [|n IH]; intros w f [|b src] w' f' r H; cbn [tk_write_all] in H; try (injection H as <- _ _; apply quiet_refl).
  destruct (tk_write w f (b :: src)) as [[w1 f1] [k|]] eqn:E; apply tk_write_quiet in E; [|injection H as <- _ _; exact E].
  destruct (k =? 0); [injection H as <- _ _; exact E|]. eapply quiet_trans; [exact E|]. eapply IH, H.
Qed.
Lemma write_quiet w wr b w' wr' r : writer_write_block w wr b = (w', wr', r) -> quiet w w'.
Proof.
  unfold writer_write_block. destruct (tk_write_all _ w (wr_file wr) b) as [[w1 f1] r1] eqn:E. intros X. injection X as <- _ _. eapply tk_write_all_quiet, E.
Qed.
Lemma flush_quiet w wr w' wr' r : writer_flush w wr = (w', wr', r) -> quiet w w'.
Proof.
  unfold writer_flush, tk_flush. destruct (tf_err (wr_file wr)); [intros X; injection X as <- _ _; apply quiet_refl|].
  destruct (tk_wait w (wr_file wr)) as [[w1 f1] r1] eqn:E. intros X. injection X as <- _ _. eapply tk_wait_quiet, E.
Qed.
Lemma feed_quiet bl : forall w wr bi w1 wr1 bi1 r, feed sink_write (w, wr, bi) bl = ((w1, wr1, bi1), r) -> quiet w w1.
Proof.
  induction bl as [|[r b] bl IH]; intros w wr bi w1 wr1 bi1 res F; [cbn in F; injection F as <- _ _ _; apply quiet_refl|].
  cbn [feed] in F. unfold sink_write at 1 in F. destruct (writer_write_block w wr b) as [[w0 wr0] [[]|]] eqn:W; apply write_quiet in W.
  - eapply quiet_trans; [exact W|]. eapply IH, F.
  - injection F as <- _ _ _. exact W.
Qed.

Lemma column_run_quiet p ops : forall w sg cw w1 sg1 rs, column_run p w sg cw ops = Ret (w1, sg1, rs) -> quiet w w1.
Proof.
  induction ops as [|o ops IH]; intros w sg cw w1 sg1 rs H; cbn [column_run] in H; [injection H as <- _ _; apply quiet_refl|].
  destruct (column_step p w sg cw o) as [[[[w0 sg0] cw0] res]|k|] eqn:E; cbn [bind] in H; try discriminate.
  destruct (column_run p w0 sg0 cw0 ops) as [[[w2 sg2] more]|k|] eqn:R; cbn [bind] in H; try discriminate. injection H as <- _ _.
  eapply quiet_trans; [|eapply IH, R]. destruct o as [b|]; cbn [column_step] in E.
  - unfold column_write in E. destruct (bin_encode sink_write p (cw_encoder cw) b _) as [[[e [[wx dt] bi]] r0]|k|] eqn:X; cbn [bind] in E; try discriminate.
    injection E as <- _ _ _. destruct (bin_encode_feed _ _ _ _ _ _ _ _ X) as (_ & bl & F & _). eapply feed_quiet, F.
  - unfold column_close in E. destruct (bin_flush sink_write p (cw_encoder cw) _) as [[[e [[wx dt] bi]] r0]|k|] eqn:X; cbn [bind] in E; try discriminate.
    destruct (bin_flush_feed _ _ _ _ _ _ _ X) as (_ & bl & r1 & F & _). apply feed_quiet in F.
    destruct r0; [destruct (md_segment_meta (sg_meta sg)); [|discriminate]|]; injection E as <- _ _ _; exact F.
Qed.

Lemma segment_close_quiet w sg it w1 sg1 r : segment_close w sg it = (w1, sg1, r) -> quiet w w1.
Proof.
  intros H. unfold segment_close in H. cbn zeta in H.
  match type of H with context [writer_write_block w (sg_index sg) ?b] => destruct (writer_write_block w (sg_index sg) b) as [[wa ia] ra] eqn:Wa end. apply write_quiet in Wa.
  destruct ra; [|injection H as <- _ _; exact Wa].
  match type of H with context [writer_write_block wa ia ?b] => destruct (writer_write_block wa ia b) as [[wb ib] rb] eqn:Wb end. apply write_quiet in Wb.
  assert (Q := quiet_trans _ _ _ Wa Wb). destruct rb; [|injection H as <- _ _; exact Q].
  destruct (writer_flush wb ib) as [[wc ic] rc] eqn:Wc. apply flush_quiet in Wc. assert (Q2 := quiet_trans _ _ _ Q Wc).
  destruct rc; [|injection H as <- _ _; exact Q2]. destruct (writer_flush wc (sg_data sg)) as [[wd dt] rd] eqn:Wd. apply flush_quiet in Wd.
  injection H as <- _ _. exact (quiet_trans _ _ _ Q2 Wd).
Qed.

Lemma seg_run_quiet p ops : forall w sg w1 sg1 rs, seg_run p w sg ops = Ret (w1, sg1, rs) -> quiet w w1.
Proof.
  induction ops as [|o ops IH]; intros w sg w1 sg1 rs H; cbn [seg_run] in H; [injection H as <- _ _; apply quiet_refl|].
  destruct (seg_step p w sg o) as [[[w0 sg0] r0]|k|] eqn:E; cbn [bind] in H; try discriminate.
  destruct (seg_run p w0 sg0 ops) as [[[w2 sg2] more]|k|] eqn:R; cbn [bind] in H; try discriminate. injection H as <- _ _.
  eapply quiet_trans; [|eapply IH, R]. destruct o as [ci cops|it]; cbn [seg_step] in E.
  - destruct (new_binary_column_writer sg ci) as [sn [cw|]]; [|injection E as <- _ _; apply quiet_refl].
    destruct (column_run p w sn cw cops) as [[[wx sx] rx]|k|] eqn:CR; cbn [bind] in E; try discriminate. injection E as <- _ _. eapply column_run_quiet, CR.
  - destruct (segment_close w sg it) as [[wx sx] rx] eqn:C. injection E as <- _ _. eapply segment_close_quiet, C.
Qed.

(** A new segment's data file has been created and nothing synced since. *)
Lemma segment_new_fresh w base info w1 sg : segment_new w base info = (w1, Ok sg) ->
  exists a b, wd_log w1 = a ++ [FCreate (data_path base (si_segment_id info))] ++ b /\ Forall no_sync b.
Proof.
  unfold segment_new. set (fd := data_path _ _). set (fi := index_path _ _). intros H.
  destruct (writer_new w fi) as [wa [ix|]]; [|discriminate]. destruct (writer_new wa fd) as [wb [dt|]] eqn:Nb; [|discriminate].
  assert (LB : exists a, wd_log wb = a ++ [FCreate fd]).
  { unfold writer_new, tk_create in Nb. destruct (next_fate wa) as [[k|] wc] eqn:NF; [discriminate|]. apply next_fate_log in NF. injection Nb as <- _. exists (wd_log wc). reflexivity. }
  destruct LB as (a & LB).
  cbn zeta in H. match type of H with context [write_headers wb ?s] => destruct (write_headers wb s) as [[wd sd] rd] eqn:W end. injection H as <- _.
  assert (Q : quiet wb wd).
  { unfold write_headers in W. cbn [sg_index sg_data] in W. destruct (writer_write_block wb ix index_file_signature) as [[wc ic] rc] eqn:Wc. apply write_quiet in Wc.
    destruct rc; [|injection W as <- _ _; exact Wc]. destruct (writer_write_block wc dt data_file_signature) as [[wx dd] rx] eqn:Wd. apply write_quiet in Wd.
    injection W as <- _ _. exact (quiet_trans _ _ _ Wc Wd). }
  destruct Q as (m & L & F). exists a, m. split; [rewrite L, LB, <- app_assoc; reflexivity|exact F].
Qed.

(** * The window *)

Lemma crash_unsynced sn d f a b : Forall (fun e => e <> FSync f) b -> cf_synced (crash_state sn d f (a ++ [FCreate f] ++ b)) = 0.
Proof.
  intros F. rewrite !crash_state_app, fold_left_app. cbn [fold_left crash_step]. destruct (path_dec f f) as [eqf|]; [|congruence]. clear eqf.
  generalize (crash_leaves (crash_state sn d f a)), (cf_named (crash_state sn d f a)), (Some (@nil BinNums.N)). intros o n c. revert o n c.
  induction F as [|e b E F IH]; intros o n c; [reflexivity|]. cbn [fold_left]. destruct e as [g|g x|g]; cbn [crash_step];
    destruct (path_dec f g) as [G|]; cbn [cf_cur cf_older cf_named cf_synced]; try apply IH. subst g. congruence.
Qed.

Lemma survives_firstn k c : survives 0 c (firstn k c).
Proof.
  split; [rewrite firstn_length; lia|]. intros i I. left. rewrite <- (firstn_skipn k c) at 2. rewrite app_nth1 by exact I. reflexivity.
Qed.

(** A segment is closed without any error; [sync] (segment_writer.rs:246-255)
    syncs the index, then the data.  If the machine stops in between, then the
    index is complete, and of the data any part may be missing: all of it, for
    instance ([k = 0]), even the signature.  This is so for every segment. *)
Theorem C54_window_exact : forall sync_names d p w base info w1 sg ops it w2 sg2 rs w3 ix3,
  0 < wd_max w -> is_id (si_segment_id info) -> segment_new w base info = (w1, Ok sg) ->
  orders_ok (ops ++ [SClose it]) -> seg_run p w1 sg (ops ++ [SClose it]) = Ret (w2, sg2, rs) -> all_ok rs ->
  writer_sync w2 (sg_index sg2) = (w3, ix3, Ok tt) ->
  let fd := data_path base (si_segment_id info) in let fi := index_path base (si_segment_id info) in
  (forall w4 r, segment_sync w2 sg2 = (w4, r) -> exists rest, wd_log w4 = wd_log w3 ++ rest)
  /\ (exists data index, directory_after d (wd_log w2) fd = Some data /\ directory_after d (wd_log w2) fi = Some index
      /\ ((N.of_nat (length index) < 18446744073709551616)%N ->
          exists s lays, read_index_file index = Some (mkmeta (Some s) lays) /\ sm_segment_id s = si_segment_id info
            /\ entries column_entry (closed_columns ops) (sm_columns_meta s))
      /\ (forall k, exists d', after_crash sync_names d (wd_log w3) d' /\ d' fd = Some (firstn k data) /\ d' fi = Some index)
      /\ (sync_names = true -> forall d', after_crash sync_names d (wd_log w3) d' -> d' fi = Some index)).
Proof.
  intros sn d p w base info w1 sg ops it w2 sg2 rs w3 ix3 M ID N O R A SY fd fi. destruct (C49_distinct base _ _ ID ID) as (_ & _ & NE). fold fd fi in NE.
  pose proof (segment_new_fresh _ _ _ _ _ N) as (a & b & L1 & F1). fold fd in L1. pose proof (seg_run_quiet _ _ _ _ _ _ _ R) as (m & L2 & F2).
  destruct (segment_new_touches d _ _ _ _ _ M ID N) as (_ & B). fold fd fi in B. destruct (seg_run_touches d p _ _ NE _ _ _ _ _ _ B R) as (_ & BD & BI).
  destruct (sync_log _ _ _ _ _ _ BI SY) as (la & La). destruct (sync_touch _ _ _ _ _ _ _ BI SY) as (X3 & _).
  assert (Da : opened d fd w3 (sg_data sg2)) by (eapply opened_other; [exact X3|congruence|exact BD]).
  split.
  { intros w4 r S4. unfold segment_sync in S4. rewrite SY in S4. destruct (writer_sync w3 (sg_data sg2)) as [[wb db] rb] eqn:Sb. injection S4 as <- <-.
    destruct (sync_touch _ _ _ _ _ _ _ Da Sb) as ((_ & mb & Lb & _) & _). exists mb. exact Lb. }
  (* the contents *)
  destruct (C45_data_file d _ _ _ _ _ _ _ _ _ _ _ M ID N O R A) as (bl & _ & DD). fold fd in DD.
  destruct (closed_files d _ _ _ _ _ _ _ _ _ _ _ M ID N O R A) as (_ & middle & mm & _ & _ & _ & _ & _ & _ & DI). fold fi in DI.
  match type of DD with _ = Some ?x => set (data := x) in * end. match type of DI with _ = Some ?x => set (index := x) in * end.
  exists data, index. split; [exact DD|]. split; [exact DI|]. split.
  { intros SZ. destruct (C47_round_trip d p w base info w1 sg ops it w2 sg2 rs _ M ID N O R A DI SZ) as (s & lays & RD & I1 & _ & _ & _ & _ & EC & _).
    exists s, lays. split; [exact RD|]. split; [exact I1|exact EC]. }
  assert (D3 : directory_after d (wd_log w3) fd = Some data) by (rewrite (extends_dir d fi fd _ _ X3) by congruence; exact DD).
  assert (I3 : directory_after d (wd_log w3) fi = Some index).
  { pose proof (segment_new_ok d p _ _ _ _ _ M ID N) as R0. fold fd fi in R0. apply seg_run_split in R; [|exact A]. destruct R as (wa & sa & ra & rb & H1 & A1 & H2 & A2).
    apply Forall_app in O. destruct O as [O1 O2]. destruct (seg_run_ok d p _ _ info NE _ _ _ _ _ _ _ R0 O1 H1 A1) as (blocks & mid & _ & _ & INV).
    cbn [seg_run seg_step] in H2. destruct (segment_close wa sa it) as [[wb sb] r] eqn:C. cbn [bind app] in H2. injection H2 as <- <- <-.
    apply Forall_cons_iff in A2. destruct A2 as [-> _]. apply Forall_cons_iff in O2. destruct O2 as [O2 _].
    destruct (segment_close_ok d _ _ info NE _ _ _ _ _ _ _ _ INV O2 C) as (mx & _ & _ & _ & _ & _ & _ & _ & ND & NI & _ & _).
    destruct BI as (_ & P & c & H). unfold writer_sync in SY. destruct (tk_sync_all _ _) as [[y f1] rr] eqn:W. injection SY as <- <- ->.
    rewrite <- P in H. destruct (tk_sync_all_spec _ _ _ _ _ _ _ W H) as (_ & _ & _ & _ & (k & HK) & _). unfold holds in *. unfold pending in HK. rewrite NI in HK.
    rewrite P in *. rewrite HK. rewrite H in DI. injection DI as ->. destruct k; cbn [firstn]; rewrite app_nil_r; reflexivity. }
  split.
  - intros k. exists (fun f => if path_dec f fd then Some (firstn k data) else directory_after d (wd_log w3) f).
    split; [|split; destruct (path_dec _ fd); try reflexivity; try congruence].
    intros f. change (crash_leaves (crash_state sn d f (wd_log w3)) (if path_dec f fd then Some (firstn k data) else directory_after d (wd_log w3) f)).
    destruct (path_dec f fd) as [-> |]; [|apply crash_leaves_cur]. right. rewrite crash_cur, D3.
    assert (Z : cf_synced (crash_state sn d fd (wd_log w3)) = 0).
    { destruct X3 as (_ & m3 & L3 & F3 & _). rewrite L3, L2, L1, <- !app_assoc. apply crash_unsynced. rewrite !Forall_app. split; [|split].
      - eapply Forall_impl; [|exact F1]. intros e Q. apply Q.
      - eapply Forall_impl; [|exact F2]. intros e Q. apply Q.
      - eapply Forall_impl; [|exact F3]. cbn. intros e [Q _] ->. cbn in Q. congruence. }
    rewrite Z. apply survives_firstn.
  - intros -> d' AC. specialize (AC fi). change (fold_left _ _ _) with (crash_state true d fi (wd_log w3)) in AC. rewrite La in AC.
    rewrite <- (app_nil_r (la ++ [FSync fi])), <- app_assoc in AC. apply crash_after_sync in AC; [|constructor]. rewrite AC, app_assoc, app_nil_r, <- La. exact I3.
Qed.
Print Assumptions C54_window_exact.

(** The segment of [C54_witness] can be lost this way. *)
Theorem C54_window_witness : exists w1 sg w2 sg2 rs w3 ix3 d',
  segment_new ex_world ex_base ex_info = (w1, Ok sg)
  /\ seg_run Debug w1 sg ([SColumn ex_a [CWrite ex_buf; CClose]] ++ [SClose ex_it]) = Ret (w2, sg2, rs) /\ all_ok rs
  /\ writer_sync w2 (sg_index sg2) = (w3, ix3, Ok tt)
  /\ after_crash true (fun _ => None) (wd_log w3) d'
  /\ option_map (@length N) (directory_after (fun _ => None) (wd_log w2) (data_path ex_base (si_segment_id ex_info))) = Some 198
  /\ d' (data_path ex_base (si_segment_id ex_info)) = Some []
  /\ d' (index_path ex_base (si_segment_id ex_info)) = directory_after (fun _ => None) (wd_log w2) (index_path ex_base (si_segment_id ex_info)).
Proof.
  set (ops := [SColumn ex_a [CWrite ex_buf; CClose]]).
  destruct (segment_blocks Debug (ops ++ [SClose ex_it])) as [bl|k|] eqn:B; [|vm_compute in B; discriminate..].
  destruct (ex_run (ops ++ [SClose ex_it]) bl) as (w1 & sg & w2 & sg2 & rs & N & R & A); [repeat constructor|exact B|].
  assert (E : run_from Debug ex_world ex_base ex_info (ops ++ [SClose ex_it]) = Some (w2, sg2, rs)) by (unfold run_from; rewrite N, R; reflexivity).
  destruct (writer_sync w2 (sg_index sg2)) as [[w3 ix3] r3] eqn:S3.
  assert (ER := f_equal (fun r => match r with Some (w, s, _) => snd (writer_sync w (sg_index s)) | None => Err end) E). cbn beta iota in ER. rewrite S3 in ER. cbn [snd] in ER.
  assert (Q : r3 = Ok tt) by (rewrite <- ER; vm_compute; reflexivity). clear ER. rewrite Q in S3.
  assert (EL := f_equal (fun r => match r with Some (w, _, _) => option_map (@length BinNums.N) (directory_after (fun _ => None) (wd_log w) (data_path ex_base (si_segment_id ex_info))) | None => None end) E).
  cbn beta iota in EL.
  destruct (C54_window_exact true (fun _ => None) Debug ex_world ex_base ex_info w1 sg ops ex_it w2 sg2 rs w3 ix3 ltac:(cbn; lia) ltac:(split; [reflexivity|repeat constructor]) N
    (ex_orders ops ltac:(repeat constructor)) R A S3) as (_ & data & index & DD & DI & _ & K & _).
  destruct (K 0) as (d' & AC & X & Y). exists w1, sg, w2, sg2, rs, w3, ix3, d'.
  split; [exact N|]. split; [exact R|]. split; [exact A|]. split; [exact S3|]. split; [exact AC|].
  split; [rewrite <- EL; vm_compute; reflexivity|]. split; [exact X|]. rewrite Y, DI. reflexivity.
Qed.
Print Assumptions C54_window_witness.
