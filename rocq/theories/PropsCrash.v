(** C54 and C63: syncing a segment. *)
From Verif Require Import Base Buffers Sink PrimEnc BinEnc Io SpecIo IoProofs PropsIo Metadata Proto SpecProto ProtoProofs ReadBlock
  BlockProofs Names PropsNames Segment SpecSegment SegmentProofs SegmentRunProofs PropsSegment PropsSegmentEx PropsSegmentRef.
From Coq Require Import Permutation.
Open Scope nat_scope.

Definition crash_init (d : directory) (f : path) : crash_file :=
  mkcf (d f) (match d f with Some c => length c | None => 0 end) (fun _ => False) (match d f with Some _ => true | None => false end).
Definition crash_state (sn : bool) (d : directory) (f : path) (log : list fs_event) : crash_file :=
  fold_left (crash_step sn f) log (crash_init d f).

Lemma crash_state_app sn d f a b : crash_state sn d f (a ++ b) = fold_left (crash_step sn f) b (crash_state sn d f a).
Proof. apply fold_left_app. Qed.

(** While it runs, the file is what a directory without crashes has. *)
Lemma crash_cur sn d f log : cf_cur (crash_state sn d f log) = directory_after d log f.
Proof.
  induction log as [|e log IH] using rev_ind; [reflexivity|]. rewrite crash_state_app, directory_after_app. cbn [fold_left directory_after].
  set (dd := directory_after d log) in *. destruct e as [g|g b|g]; cbn [crash_step apply_effect]; destruct (path_dec f g); cbn [cf_cur]; rewrite ?IH; reflexivity.
Qed.

Lemma crash_other sn f log : forall c, Forall (fun e => event_path e <> f) log -> fold_left (crash_step sn f) log c = c.
Proof.
  induction log as [|e log IH]; intros c F; [reflexivity|]. apply Forall_cons_iff in F. destruct F as [F1 F2]. cbn [fold_left].
  replace (crash_step sn f c e) with c; [apply IH, F2|]. destruct e as [g|g b|g]; cbn [crash_step event_path] in *; destruct (path_dec f g); congruence.
Qed.

Lemma crash_synced sn d f log : cf_synced (crash_state sn d f log) <= match cf_cur (crash_state sn d f log) with Some c => length c | None => 0 end.
Proof.
  induction log as [|e log IH] using rev_ind; [cbn; destruct (d f); lia|]. rewrite crash_state_app. cbn [fold_left].
  destruct (crash_state sn d f log) as [cur syn old nam]. cbn [cf_cur cf_synced] in IH.
  destruct e as [g|g b|g]; cbn [crash_step]; destruct (path_dec f g); cbn [cf_cur cf_synced]; try assumption; try lia.
  destruct cur as [c|]; cbn [option_map]; [rewrite app_length|]; lia.
Qed.

Lemma survives_self n c : n <= length c -> survives n c c.
Proof. intros H. split; [lia|]. auto. Qed.

Lemma survives_all c l : survives (length c) c l -> l = c.
Proof. intros [L H]. assert (E : length l = length c) by lia. apply nth_ext with (d := 0%N) (d' := 0%N); [exact E|]. intros i I. destruct (H i I) as [X|[X _]]; [exact X|lia]. Qed.

(** A crash may leave everything as it is. *)
Lemma crash_leaves_cur sn d f log : crash_leaves (crash_state sn d f log) (directory_after d log f).
Proof.
  right. pose proof (crash_synced sn d f log) as S1. rewrite crash_cur in *. destruct (directory_after d log f); [|exact I]. apply survives_self, S1.
Qed.

(** What was synced last, and not touched since, is left. *)
Lemma crash_after_sync d f a b left : Forall (fun e => event_path e <> f) b ->
  crash_leaves (crash_state true d f (a ++ [FSync f] ++ b)) left -> left = directory_after d (a ++ [FSync f] ++ b) f.
Proof.
  intros F. rewrite !crash_state_app, fold_left_app, (crash_other _ _ b _ F), !directory_after_app. rewrite (directory_after_other b) by exact F.
  pose proof (crash_cur true d f a) as CC. destruct (crash_state true d f a) as [cur syn old nam]. cbn [cf_cur] in CC. subst cur.
  cbn [fold_left crash_step directory_after apply_effect]. destruct (path_dec f f); [|congruence]. unfold crash_leaves. cbn [cf_older cf_cur cf_synced].
  fold (directory_after d a). intros [[H _]|H]; [destruct nam; discriminate|]. destruct (directory_after d a f) as [c|], left as [l|]; try contradiction; [|reflexivity].
  f_equal. apply survives_all, H.
Qed.

Lemma sync_log d f w wr w1 wr1 : opened d f w wr -> writer_sync w wr = (w1, wr1, Ok tt) -> exists a, wd_log w1 = a ++ [FSync f].
Proof.
  intros (_ & P & c & H) E. unfold writer_sync, tk_sync_all in E. destruct (tk_flush w (wr_file wr)) as [[w0 f0] r0] eqn:F.
  rewrite <- P in H. destruct (tk_flush_spec _ _ _ _ _ _ _ F H) as (P0 & _). destruct (next_fate w0) as [[k|] w2] eqn:NF; [discriminate|].
  injection E as <- <-. exists (wd_log w2). cbn [effect wd_log]. f_equal. f_equal. rewrite <- P, <- P0. destruct r0; reflexivity.
Qed.

(** * Once sync reports success, both files survive *)

(** After anything, even failed calls. *)
Theorem C54_synced_survives_partial : forall d p w base info w1 sg ops w2 sg2 rs w3 more d',
  0 < wd_max w -> is_id (si_segment_id info) -> segment_new w base info = (w1, Ok sg) ->
  seg_run p w1 sg ops = Ret (w2, sg2, rs) -> segment_sync w2 sg2 = (w3, Ok tt) ->
  let fd := data_path base (si_segment_id info) in let fi := index_path base (si_segment_id info) in
  Forall (fun e => event_path e <> fd /\ event_path e <> fi) more ->
  after_crash true d (wd_log w3 ++ more) d' ->
  d' fd = directory_after d (wd_log w3) fd /\ d' fi = directory_after d (wd_log w3) fi.
Proof.
  intros d p w base info w1 sg ops w2 sg2 rs w3 more d' M ID N R SY fd fi FM AC. destruct (C49_distinct base _ _ ID ID) as (_ & _ & NE). fold fd fi in NE.
  destruct (segment_new_touches d _ _ _ _ _ M ID N) as (_ & B). fold fd fi in B. destruct (seg_run_touches d p _ _ NE _ _ _ _ _ _ B R) as (_ & BD & BI).
  unfold segment_sync in SY. destruct (writer_sync w2 (sg_index sg2)) as [[wa ia] [[]|]] eqn:Sa; [|discriminate].
  destruct (sync_log _ _ _ _ _ _ BI Sa) as (la & La). destruct (sync_touch _ _ _ _ _ _ _ BI Sa) as (Xa & _).
  destruct (writer_sync wa (sg_data sg2)) as [[wb db] rb] eqn:Sb. injection SY as <- ->.
  assert (Da : opened d fd wa (sg_data sg2)) by (eapply opened_other; [exact Xa|congruence|exact BD]).
  destruct (sync_log _ _ _ _ _ _ Da Sb) as (lb & Lb). destruct (sync_touch _ _ _ _ _ _ _ Da Sb) as ((_ & mb & Lb' & Fb & _) & _).
  split.
  - specialize (AC fd). change (fold_left _ _ _) with (crash_state true d fd (wd_log wb ++ more)) in AC. rewrite Lb in AC |- *. rewrite <- app_assoc in AC.
    apply crash_after_sync in AC; [|eapply Forall_impl; [|exact FM]; cbn; tauto]. rewrite AC, !directory_after_app. apply directory_after_other. eapply Forall_impl; [|exact FM]; cbn; tauto.
  - specialize (AC fi). change (fold_left _ _ _) with (crash_state true d fi (wd_log wb ++ more)) in AC. rewrite Lb', La in AC |- *. rewrite <- !app_assoc in AC.
    assert (FB : Forall (fun e => event_path e <> fi) (mb ++ more)).
    { apply Forall_app. split; [eapply Forall_impl; [|exact Fb]; cbn; intros e [-> _]; congruence|eapply Forall_impl; [|exact FM]; cbn; tauto]. }
    apply crash_after_sync in AC; [|exact FB]. rewrite AC, <- !app_assoc, !directory_after_app.
    rewrite directory_after_other by (eapply Forall_impl; [|exact FM]; cbn; tauto). reflexivity.
Qed.
Print Assumptions C54_synced_survives_partial.

(** Closed and synced: all blocks and the metadata are there after any crash. *)
Theorem C54_closed_and_synced_partial : forall d p w base info w1 sg ops it w2 sg2 rs w3 more d',
  0 < wd_max w -> is_id (si_segment_id info) -> segment_new w base info = (w1, Ok sg) ->
  orders_ok (ops ++ [SClose it]) -> seg_run p w1 sg (ops ++ [SClose it]) = Ret (w2, sg2, rs) -> all_ok rs ->
  segment_sync w2 sg2 = (w3, Ok tt) ->
  let fd := data_path base (si_segment_id info) in let fi := index_path base (si_segment_id info) in
  Forall (fun e => event_path e <> fd /\ event_path e <> fi) more ->
  after_crash true d (wd_log w3 ++ more) d' ->
  d' fd = directory_after d (wd_log w2) fd /\ d' fi = directory_after d (wd_log w2) fi
  /\ (exists blocks, segment_blocks p ops = Ret blocks
        /\ d' fd = Some ([77; 69; 69; 82; 75; 65; 84; 95; 68; 65; 84; 65; 49]%N ++ concat (map snd blocks)))
  /\ (exists file, d' fi = Some file
        /\ ((N.of_nat (length file) < 18446744073709551616)%N ->
            exists s lays, read_index_file file = Some (mkmeta (Some s) lays) /\ sm_segment_id s = si_segment_id info
              /\ entries column_entry (closed_columns ops) (sm_columns_meta s))).
Proof.
  intros d p w base info w1 sg ops it w2 sg2 rs w3 more d' M ID N O R A SY fd fi FM AC. destruct (C49_distinct base _ _ ID ID) as (_ & _ & NE). fold fd fi in NE.
  destruct (C54_synced_survives_partial d p w base info w1 sg _ w2 sg2 rs w3 more d' M ID N R SY FM AC) as (SD & SI). fold fd in SD. fold fi in SI.
  assert (SAME : directory_after d (wd_log w3) fd = directory_after d (wd_log w2) fd /\ directory_after d (wd_log w3) fi = directory_after d (wd_log w2) fi).
  { pose proof (segment_new_ok d p _ _ _ _ _ M ID N) as R0. fold fd fi in R0. apply seg_run_split in R; [|exact A]. destruct R as (wa & sa & ra & rb & H1 & A1 & H2 & A2).
    apply Forall_app in O. destruct O as [O1 O2]. destruct (seg_run_ok d p _ _ info NE _ _ _ _ _ _ _ R0 O1 H1 A1) as (blocks & middle & _ & _ & INV).
    cbn [seg_run seg_step] in H2. destruct (segment_close wa sa it) as [[wb sb] r] eqn:C. cbn [bind app] in H2. injection H2 as <- <- <-.
    apply Forall_cons_iff in A2. destruct A2 as [-> _]. apply Forall_cons_iff in O2. destruct O2 as [O2 _].
    destruct (segment_close_ok d _ _ info NE _ _ _ _ _ _ _ _ INV O2 C) as (m & _ & _ & _ & (BD & BI & _) & _ & _ & _ & ND & NI & _ & _).
    apply sound_opened in BD, BI. unfold segment_sync in SY. destruct (writer_sync wb (sg_index sb)) as [[wx ix] [[]|]] eqn:Sx; [|discriminate].
    destruct (sync_touch _ _ _ _ _ _ _ BI Sx) as (Xx & _). destruct (writer_sync wx (sg_data sb)) as [[wy dy] ry] eqn:Sy. injection SY as <- ->.
    assert (Dx : opened d fd wx (sg_data sb)) by (eapply opened_other; [exact Xx|congruence|exact BD]).
    destruct (sync_touch _ _ _ _ _ _ _ Dx Sy) as (Xy & _).
    assert (Q : forall f w wr w1 wr1 r, opened d f w wr -> tf_busy (wr_file wr) = None -> writer_sync w wr = (w1, wr1, r) -> directory_after d (wd_log w1) f = directory_after d (wd_log w) f).
    { clear. intros f w wr w1 wr1 r (_ & P & c & H) NB E. unfold writer_sync in E. destruct (tk_sync_all _ _) as [[a f1] rr] eqn:W. injection E as <- <- <-.
      rewrite <- P in H. destruct (tk_sync_all_spec _ _ _ _ _ _ _ W H) as (_ & _ & _ & _ & (k & HK) & _). unfold holds in *. unfold pending in HK. rewrite NB in HK.
      rewrite P in *. rewrite H, HK. destruct k; cbn [firstn]; rewrite app_nil_r; reflexivity. }
    split.
    - rewrite (Q _ _ _ _ _ _ Dx ND Sy). apply (extends_dir d fi fd _ _ Xx). congruence.
    - rewrite (extends_dir d fd fi _ _ Xy NE). apply (Q _ _ _ _ _ _ BI NI Sx). }
  destruct SAME as (SAMED & SAMEI). rewrite SAMED in SD. rewrite SAMEI in SI. split; [exact SD|]. split; [exact SI|]. split.
  - destruct (C45_data_file d _ _ _ _ _ _ _ _ _ _ _ M ID N O R A) as (bl & B & D). exists bl. split; [exact B|]. rewrite SD. exact D.
  - destruct (closed_files d _ _ _ _ _ _ _ _ _ _ _ M ID N O R A) as (_ & middle & m & _ & _ & _ & _ & _ & _ & DI). fold fi in DI.
    eexists. split; [rewrite SI; exact DI|]. intros SZ.
    destruct (C47_round_trip d p w base info w1 sg ops it w2 sg2 rs _ M ID N O R A DI SZ) as (s & lays & RD & I1 & _ & _ & _ & _ & EC & _).
    exists s, lays. split; [exact RD|]. split; [exact I1|exact EC].
Qed.
Print Assumptions C54_closed_and_synced_partial.

(** * The index may survive without the data *)

(** The second half of the property: whenever a crash leaves a complete index
    file, the data file is complete, too.  [log] ends at the crash. *)
Definition C54_index_implies_data (sync_names : bool) : Prop :=
  forall d p w base info w1 sg ops it w2 sg2 rs w3 r3 log rest d' index m,
    0 < wd_max w -> is_id (si_segment_id info) -> segment_new w base info = (w1, Ok sg) ->
    orders_ok (ops ++ [SClose it]) -> seg_run p w1 sg (ops ++ [SClose it]) = Ret (w2, sg2, rs) -> all_ok rs ->
    segment_sync w2 sg2 = (w3, r3) ->
    wd_log w3 = log ++ rest -> after_crash sync_names d log d' ->
    d' (index_path base (si_segment_id info)) = Some index -> read_index_file index = Some m ->
    d' (data_path base (si_segment_id info)) = directory_after d (wd_log w2) (data_path base (si_segment_id info)).

(** Stopping between the two syncs, of which the first is that of the index. *)
Theorem C54_index_before_data_refuted : ~ C54_index_implies_data true.
Proof.
  intros H. set (ops := [SColumn ex_a [CWrite ex_buf; CClose]]).
  destruct (segment_blocks Debug (ops ++ [SClose ex_it])) as [bl|k|] eqn:B; [|vm_compute in B; discriminate..].
  destruct (ex_run (ops ++ [SClose ex_it]) bl) as (w1 & sg & w2 & sg2 & rs & N & R & A); [repeat constructor|exact B|].
  set (fd := data_path ex_base (si_segment_id ex_info)). set (fi := index_path ex_base (si_segment_id ex_info)). set (d := (fun _ => None) : directory).
  assert (E : run_from Debug ex_world ex_base ex_info (ops ++ [SClose ex_it]) = Some (w2, sg2, rs)) by (unfold run_from; rewrite N, R; reflexivity).
  destruct (segment_sync w2 sg2) as [w3 r3] eqn:S3.
  assert (EW := f_equal (fun r => match r with Some (w, _, _) => w | None => ex_world end) E).
  assert (ES := f_equal (fun r => match r with Some (w, s, _) => fst (segment_sync w s) | None => ex_world end) E). cbn beta iota in EW, ES. rewrite S3 in ES. cbn [fst] in ES.
  assert (L3 : wd_log w3 = (wd_log w2 ++ [FSync fi]) ++ [FSync fd]) by (rewrite <- ES, <- EW; vm_compute; reflexivity).
  set (log := wd_log w2 ++ [FSync fi]) in *.
  destruct (directory_after d log fi) as [index|] eqn:DI; [|unfold log in DI; rewrite <- EW in DI; vm_compute in DI; discriminate].
  destruct (read_index_file index) as [m|] eqn:RI.
  2:{ assert (X : match directory_after d log fi with Some f => read_index_file f | None => None end = None) by (rewrite DI; exact RI). unfold log in X. rewrite <- EW in X. vm_compute in X. discriminate. }
  set (d' := fun f => if path_dec f fd then Some [] else directory_after d log f).
  assert (AC : after_crash true d log d').
  { intros f. change (crash_leaves (crash_state true d f log) (d' f)). unfold d'. destruct (path_dec f fd) as [-> |]; [|apply crash_leaves_cur].
    right. assert (S0 : cf_synced (crash_state true d fd log) = 0) by (unfold log; rewrite <- EW; vm_compute; reflexivity). rewrite S0.
    assert (C0 : cf_cur (crash_state true d fd log) <> None) by (unfold log; rewrite <- EW; vm_compute; discriminate).
    destruct (cf_cur (crash_state true d fd log)); [|congruence]. split; [cbn; lia|cbn; intros; lia]. }
  specialize (H d Debug ex_world ex_base ex_info w1 sg ops ex_it w2 sg2 rs w3 r3 log [FSync fd] d' index m ltac:(cbn; lia) ltac:(split; [reflexivity|repeat constructor]) N (ex_orders ops ltac:(repeat constructor)) R A S3 L3 AC).
  fold fd fi in H. assert (DF : d' fi = Some index) by (unfold d'; destruct (path_dec fi fd) as [X|]; [vm_compute in X; discriminate|exact DI]).
  specialize (H DF RI). unfold d' in H. destruct (path_dec fd fd); [|congruence]. rewrite <- EW in H. vm_compute in H. discriminate H.
Qed.
Print Assumptions C54_index_before_data_refuted.

(** * File systems that do not sync names *)

Lemma crash_posix d f log : d f = None -> cf_named (crash_state false d f log) = false /\ crash_leaves (crash_state false d f log) None.
Proof.
  intros Z. induction log as [|e log [IN IH]] using rev_ind.
  - unfold crash_state, crash_init. cbn [fold_left]. rewrite Z. split; [reflexivity|]. right. exact I.
  - rewrite crash_state_app. cbn [fold_left]. destruct (crash_state false d f log) as [cur syn old nam]. cbn [cf_named] in IN. subst nam.
    destruct e as [g|g b|g]; cbn [crash_step]; destruct (path_dec f g); cbn [cf_named orb]; (split; [reflexivity|]); try exact IH.
    + left. exact IH.
    + destruct IH as [IH|IH]; [left; exact IH|right]. cbn [cf_cur] in IH |- *. destruct cur; [contradiction|exact I].
    + left. split; reflexivity.
Qed.

(** A new segment, closed and synced without any error, may be gone: /repo never
    syncs the directory. *)
Theorem C54_posix_partial : forall d log fd fi, d fd = None -> d fi = None -> fd <> fi ->
  exists d', after_crash false d log d' /\ d' fd = None /\ d' fi = None.
Proof.
  intros d log fd fi D1 D2 NE. exists (fun f => if path_dec f fd then None else if path_dec f fi then None else directory_after d log f).
  split; [|split; destruct (path_dec _ fd); try reflexivity; destruct (path_dec fi fi); congruence].
  intros f. change (crash_leaves (crash_state false d f log) (if path_dec f fd then None else if path_dec f fi then None else directory_after d log f)).
  destruct (path_dec f fd) as [-> |]; [apply crash_posix, D1|]. destruct (path_dec f fi) as [-> |]; [apply crash_posix, D2|]. apply crash_leaves_cur.
Qed.
Print Assumptions C54_posix_partial.

(** The first half of the property on such file systems. *)
Definition C54_survives_posix : Prop := forall d p w base info w1 sg ops w2 sg2 rs w3 d',
  0 < wd_max w -> is_id (si_segment_id info) -> segment_new w base info = (w1, Ok sg) ->
  seg_run p w1 sg ops = Ret (w2, sg2, rs) -> all_ok rs -> segment_sync w2 sg2 = (w3, Ok tt) ->
  after_crash false d (wd_log w3) d' ->
  d' (data_path base (si_segment_id info)) <> None.

Theorem C54_survives_posix_refuted : ~ C54_survives_posix.
Proof.
  intros H. set (ops := [SColumn ex_a [CWrite ex_buf; CClose]]).
  destruct (segment_blocks Debug (ops ++ [SClose ex_it])) as [bl|k|] eqn:B; [|vm_compute in B; discriminate..].
  destruct (ex_run (ops ++ [SClose ex_it]) bl) as (w1 & sg & w2 & sg2 & rs & N & R & A); [repeat constructor|exact B|].
  assert (E : run_from Debug ex_world ex_base ex_info (ops ++ [SClose ex_it]) = Some (w2, sg2, rs)) by (unfold run_from; rewrite N, R; reflexivity).
  destruct (segment_sync w2 sg2) as [w3 r3] eqn:S3.
  assert (ES := f_equal (fun r => match r with Some (w, s, _) => snd (segment_sync w s) | None => Err end) E). cbn beta iota in ES. rewrite S3 in ES. cbn [snd] in ES.
  assert (Q : r3 = Ok tt) by (rewrite <- ES; vm_compute; reflexivity). clear ES. rewrite Q in S3.
  destruct (C54_posix_partial (fun _ => None) (wd_log w3) (data_path ex_base (si_segment_id ex_info)) (index_path ex_base (si_segment_id ex_info)) eq_refl eq_refl) as (d' & AC & X & _); [vm_compute; discriminate|].
  exact (H _ Debug ex_world ex_base ex_info w1 sg _ w2 sg2 rs w3 d' ltac:(cbn; lia) ltac:(split; [reflexivity|repeat constructor]) N R A S3 AC X).
Qed.
Print Assumptions C54_survives_posix_refuted.

(** The hypotheses of the first theorem can be met: the segment above, synced,
    and another file written afterwards. *)
Theorem C54_witness : exists w1 sg w2 sg2 rs w3 d',
  segment_new ex_world ex_base ex_info = (w1, Ok sg)
  /\ seg_run Debug w1 sg ([SColumn ex_a [CWrite ex_buf; CClose]] ++ [SClose ex_it]) = Ret (w2, sg2, rs) /\ all_ok rs
  /\ segment_sync w2 sg2 = (w3, Ok tt)
  /\ after_crash true (fun _ => None) (wd_log w3 ++ [FCreate [120]%N; FAppend [120]%N [1; 2; 3]%N]) d'
  /\ d' [120]%N = Some [1; 0]%N
  /\ option_map (@length N) (d' (data_path ex_base (si_segment_id ex_info))) = Some 198.
Proof.
  set (ops := [SColumn ex_a [CWrite ex_buf; CClose]]).
  destruct (segment_blocks Debug (ops ++ [SClose ex_it])) as [bl|k|] eqn:B; [|vm_compute in B; discriminate..].
  destruct (ex_run (ops ++ [SClose ex_it]) bl) as (w1 & sg & w2 & sg2 & rs & N & R & A); [repeat constructor|exact B|].
  assert (E : run_from Debug ex_world ex_base ex_info (ops ++ [SClose ex_it]) = Some (w2, sg2, rs)) by (unfold run_from; rewrite N, R; reflexivity).
  destruct (segment_sync w2 sg2) as [w3 r3] eqn:S3.
  assert (ER := f_equal (fun r => match r with Some (w, s, _) => snd (segment_sync w s) | None => Err end) E).
  assert (ES := f_equal (fun r => match r with Some (w, s, _) => fst (segment_sync w s) | None => ex_world end) E). cbn beta iota in ER, ES. rewrite S3 in ER, ES. cbn [fst snd] in ER, ES.
  assert (Q : r3 = Ok tt) by (rewrite <- ER; vm_compute; reflexivity). clear ER. rewrite Q in S3.
  set (log := wd_log w3 ++ [FCreate [120]%N; FAppend [120]%N [1; 2; 3]%N]).
  exists w1, sg, w2, sg2, rs, w3, (fun f => if path_dec f [120]%N then Some [1; 0]%N else directory_after (fun _ => None) log f).
  split; [exact N|]. split; [exact R|]. split; [exact A|]. split; [exact S3|]. split; [|split].
  - intros f. change (crash_leaves (crash_state true (fun _ => None) f log) (if path_dec f [120]%N then Some [1; 0]%N else directory_after (fun _ => None) log f)).
    destruct (path_dec f [120]%N) as [-> |]; [|apply crash_leaves_cur]. right. unfold log. rewrite <- ES.
    match goal with |- match cf_cur ?c with _ => _ end => assert (X : cf_cur c = Some [1; 2; 3]%N) by (vm_compute; reflexivity); assert (Y : cf_synced c = 0) by (vm_compute; reflexivity); rewrite X, Y end.
    split; [cbn; lia|]. intros i I. cbn in I. destruct i as [|[|i]]; [left; reflexivity|right; split; [lia|reflexivity]|lia].
  - reflexivity.
  - destruct (path_dec _ [120]%N) as [X|]; [vm_compute in X; discriminate|]. unfold log. rewrite <- ES. vm_compute. reflexivity.
Qed.
Print Assumptions C54_witness.

(** * C63: a successful sync means that everything is written *)

Definition C63_statement : Prop := forall d w f w1 wr ops w2 wr2 rs,
  0 < wd_max w -> writer_new w f = (w1, Ok wr) ->
  writer_run w1 wr (ops ++ [WSync]) = (w2, wr2, rs) -> Forall (fun r => r = Ok tt) rs ->
  directory_after d (wd_log w2) f = Some (blocks_of ops).

(** The background write fails; sync waits for it, keeps the error for later and
    reports the success of the sync itself. *)
Theorem C63_sync_hides_refuted : ~ C63_statement.
Proof.
  intros H. destruct (writer_new (mkworld [] [None; Some 1] 9) [7]%N) as [w1 [wr|]] eqn:N; [|discriminate].
  destruct (writer_run w1 wr ([WBlock [1; 2; 3]%N] ++ [WSync])) as [[w2 wr2] rs] eqn:R.
  assert (K : Forall (fun r => r = Ok tt) rs) by (cbn in N; injection N as <- <-; cbn in R; injection R as <- <- <-; repeat constructor).
  specialize (H (fun _ => None) (mkworld [] [None; Some 1] 9) _ _ _ [WBlock [1; 2; 3]%N] _ _ _ ltac:(cbn; lia) N R K).
  cbn in N. injection N as <- <-. cbn in R. injection R as <- <- <-. vm_compute in H. discriminate.
Qed.
Print Assumptions C63_sync_hides_refuted.

Lemma all_reports_ok ops : forall w wr w1 wr1 rs, writer_run w wr ops = (w1, wr1, rs) -> Forall (fun r => r = Ok tt) rs -> reports_ok ops rs.
Proof.
  induction ops as [|o ops IH]; intros w wr w1 wr1 rs R K; cbn [writer_run] in R.
  - injection R as <- <- <-. constructor.
  - destruct (writer_step w wr o) as [[w0 wr0] r]. destruct (writer_run w0 wr0 ops) as [[w2 wr2] rs2] eqn:R2. injection R as <- <- <-.
    apply Forall_cons_iff in K. destruct K as [-> K]. constructor; [right; reflexivity|]. eapply IH; eassumption.
Qed.

Lemma blocks_of_sync ops : blocks_of (ops ++ [WSync]) = blocks_of ops.
Proof. rewrite blocks_of_app. cbn. apply app_nil_r. Qed.

(** Missing: without a flush before it, only one of: everything is in the file, or
    a flush that follows reports the error. *)
Theorem C63_or_flush_fails_partial : forall d w f w1 wr ops w2 wr2 rs,
  0 < wd_max w -> writer_new w f = (w1, Ok wr) ->
  writer_run w1 wr (ops ++ [WSync]) = (w2, wr2, rs) -> Forall (fun r => r = Ok tt) rs ->
  directory_after d (wd_log w2) f = Some (blocks_of ops) \/ snd (writer_flush w2 wr2) = Err.
Proof.
  intros d w f w1 wr ops w2 wr2 rs M N R K. pose proof (all_reports_ok _ _ _ _ _ _ R K) as RK.
  destruct (writer_run_split _ _ _ _ _ _ _ R RK) as (wa & wra & r1 & r2 & Ra & Ka & Rb & Kb & _).
  pose proof (writer_run_sound _ _ _ _ _ _ _ _ _ (new_sound d _ _ _ _ M N) Ra Ka) as (_ & P & c & H & X). cbn [app] in X.
  cbn [writer_run writer_step] in Rb. unfold writer_sync in Rb. destruct (tk_sync_all wa (wr_file wra)) as [[wb f1] r] eqn:W. injection Rb as <- <- <-.
  rewrite <- P in H. destruct (tk_sync_all_spec _ _ _ _ _ _ _ W H) as (_ & _ & [E|(E & _ & HK)] & _).
  - right. unfold writer_flush, tk_flush. cbn [wr_file]. rewrite E. reflexivity.
  - left. destruct X as [X|X]; [congruence|]. rewrite X, P in HK. exact HK.
Qed.
Print Assumptions C63_or_flush_fails_partial.

(** After a flush, as [SegmentWriter::close] does before [SegmentWriter::sync], it
    does mean that. *)
Theorem C63_flush_then_sync_partial : forall d w f w1 wr ops w2 wr2 rs,
  0 < wd_max w -> writer_new w f = (w1, Ok wr) ->
  writer_run w1 wr (ops ++ [WFlush; WSync]) = (w2, wr2, rs) -> Forall (fun r => r = Ok tt) rs ->
  directory_after d (wd_log w2) f = Some (blocks_of ops).
Proof.
  intros d w f w1 wr ops w2 wr2 rs M N R K. pose proof (all_reports_ok _ _ _ _ _ _ R K) as RK.
  change [WFlush; WSync] with ([WFlush] ++ [WSync]) in R, RK. rewrite app_assoc in R, RK.
  destruct (writer_run_split _ _ _ _ _ _ _ R RK) as (wa & wra & r1 & r2 & Ra & Ka & Rb & Kb & _).
  pose proof (C44_flush_means_written d _ _ _ _ _ _ _ _ M N Ra Ka) as D.
  pose proof (writer_run_sound _ _ _ _ _ _ _ _ _ (new_sound d _ _ _ _ M N) Ra Ka) as (_ & P & c & H & X). cbn [app] in X.
  cbn [writer_run writer_step] in Rb. unfold writer_sync in Rb. destruct (tk_sync_all wa (wr_file wra)) as [[wb f1] r] eqn:W. injection Rb as <- <- <-.
  assert (B : tf_busy (wr_file wra) = None).
  { apply writer_run_split in Ra; [|exact Ka]. destruct Ra as (wx & wrx & ra & rb & _ & _ & Rf & Kf & _). cbn [writer_run writer_step] in Rf.
    unfold writer_flush in Rf. destruct (tk_flush wx (wr_file wrx)) as [[wy fy] ry] eqn:F. injection Rf as <- <- <-. cbn [wr_file].
    inversion Kf as [|? ? ? ? [Z| ->] _]; subst; [discriminate|]. unfold tk_flush in F. destruct (tf_err (wr_file wrx)); [discriminate|].
    unfold tk_wait in F. destruct (tf_busy (wr_file wrx)) as [ch|] eqn:TB; [|injection F as <- <-; exact TB].
    destruct (tk_background wx (tf_path (wr_file wrx)) ch) as [wz rz]. injection F as <- <- _. reflexivity. }
  rewrite <- P in H. destruct (tk_sync_all_spec _ _ _ _ _ _ _ W H) as (_ & _ & _ & _ & (k & HK) & _).
  unfold pending in HK. rewrite B, firstn_nil, app_nil_r, P in HK. unfold holds in *. rewrite P in H. congruence.
Qed.
Print Assumptions C63_flush_then_sync_partial.

Example C63_witness :
  match writer_new (mkworld [] [None; Some 1] 9) [7]%N with
  | (w1, Ok wr) =>
      snd (writer_run w1 wr [WBlock [1; 2; 3]%N; WSync; WFlush]) = [Ok tt; Ok tt; Err]
      /\ snd (writer_run (mkworld (wd_log w1) [] 2) wr [WBlock [1; 2; 3]%N; WFlush; WSync]) = [Ok tt; Ok tt; Ok tt]
  | _ => False
  end.
Proof. vm_compute. split; reflexivity. Qed.

(** * C60: closing a segment again *)

(** Two maps, as lists in any order, with the same entries. *)
Definition same_map {A} (a b : list (list N * A)) : Prop := NoDup (map fst a) /\ NoDup (map fst b) /\ forall name x, In (name, x) a <-> In (name, x) b.

Lemma describes_same {A} (f : column_info -> A) closed a b : describes f closed a -> describes f closed b -> same_map a b.
Proof.
  intros [NA DA] [NB DB]. split; [exact NA|]. split; [exact NB|]. intros name x. rewrite <- (assoc_in _ _ _ NA), <- (assoc_in _ _ _ NB), DA, DB. reflexivity.
Qed.

Theorem C60_close_again : forall d p w base info w1 sg ops it it' w2 sg2 rs w3 sg3 file file',
  0 < wd_max w -> is_id (si_segment_id info) -> segment_new w base info = (w1, Ok sg) ->
  orders_ok (ops ++ [SClose it]) -> seg_run p w1 sg (ops ++ [SClose it]) = Ret (w2, sg2, rs) -> all_ok rs ->
  orders_ok [SClose it'] -> segment_close w2 sg2 it' = (w3, sg3, Ok tt) ->
  let fd := data_path base (si_segment_id info) in let fi := index_path base (si_segment_id info) in
  directory_after d (wd_log w2) fi = Some file -> directory_after d (wd_log w3) fi = Some file' ->
  (N.of_nat (length file) < 18446744073709551616)%N -> (N.of_nat (length file') < 18446744073709551616)%N ->
  directory_after d (wd_log w3) fd = directory_after d (wd_log w2) fd
  /\ exists s lays s' lays',
       read_index_file file = Some (mkmeta (Some s) lays) /\ read_index_file file' = Some (mkmeta (Some s') lays')
       /\ sm_segment_id s' = sm_segment_id s /\ sm_database_name s' = sm_database_name s /\ sm_table_name s' = sm_table_name s
       /\ sm_shard_id s' = sm_shard_id s /\ sm_num_rows s' = sm_num_rows s
       /\ same_map (sm_columns_meta s) (sm_columns_meta s') /\ same_map lays lays'.
Proof.
  intros d p w base info w1 sg ops it it' w2 sg2 rs w3 sg3 file file' M ID N O R A O' C fd fi DF DF' SZ SZ'.
  assert (R' : seg_run p w1 sg ((ops ++ [SClose it]) ++ [SClose it']) = Ret (w3, sg3, rs ++ [Ok tt])).
  { rewrite seg_run_app, R. cbn [bind seg_run seg_step]. rewrite C. reflexivity. }
  assert (OO : orders_ok ((ops ++ [SClose it]) ++ [SClose it'])) by (apply Forall_app; split; assumption).
  assert (AA : all_ok (rs ++ [Ok tt])) by (apply Forall_app; split; [exact A|repeat constructor]).
  split.
  - destruct (C45_data_file d _ _ _ _ _ _ _ _ _ _ _ M ID N O R A) as (bl & B & D). destruct (C45_data_file d _ _ _ _ _ _ _ _ _ _ _ M ID N OO R' AA) as (bl' & B' & D').
    fold fd in D, D'. rewrite D, D'. rewrite segment_blocks_app, B in B'. cbn [bind segment_blocks] in B'. rewrite app_nil_r in B'. injection B' as <-. reflexivity.
  - destruct (closed_read d p w base info w1 sg ops it w2 sg2 rs file M ID N O R A DF SZ) as (cols & lays & R1 & DC & DL).
    destruct (closed_read d p w base info w1 sg _ it' w3 sg3 _ file' M ID N OO R' AA DF' SZ') as (cols' & lays' & R2 & DC' & DL').
    assert (EC : closed_columns (ops ++ [SClose it]) = closed_columns ops) by (unfold closed_columns; rewrite flat_map_app; cbn; apply app_nil_r).
    rewrite EC in DC', DL'. eexists _, lays, _, lays'. split; [exact R1|]. split; [exact R2|].
    cbn [sm_segment_id sm_database_name sm_table_name sm_shard_id sm_num_rows sm_columns_meta].
    do 5 (split; [reflexivity|]). split; eapply describes_same; eassumption.
Qed.
Print Assumptions C60_close_again.

(** Two columns, closed twice, the second time in the opposite order: the index
    file grows, the metadata read from it has the same columns. *)
Theorem C60_witness :
  let ops := [SColumn ex_a [CWrite ex_buf; CClose]; SColumn ex_c [CWrite ex_buf; CClose]] in
  let fi := index_path ex_base (si_segment_id ex_info) in
  let once := run_from Debug ex_world ex_base ex_info (ops ++ [SClose ex_it]) in
  let twice := run_from Debug ex_world ex_base ex_info (ops ++ [SClose ex_it; SClose (mkiter (fun l => l) (@rev _))]) in
  match twice with Some (_, _, rs) => rs = repeat (Ok tt) 8 | None => False end
  /\ match file_after fi once, file_after fi twice with
     | Some file, Some file' =>
         length file = 101 /\ length file' = 190
         /\ match read_index_file file, read_index_file file' with
            | Some m, Some m' => map fst (md_columns_layout m) = [[97]; [99]]%N /\ map fst (md_columns_layout m') = [[99]; [97]]%N
            | _, _ => False
            end
     | _, _ => False
     end.
Proof. vm_compute. tauto. Qed.
Print Assumptions C60_witness.
