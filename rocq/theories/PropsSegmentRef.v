(** C48, C50, C52, C53, C59, C61, C62: what a segment touches, loses and
    duplicates. *)
From Verif Require Import Base Varint Offsets Rle RleTrackProofs Buffers Sink PrimEnc BinEnc Io SpecIo IoProofs PropsIo Metadata Proto SpecProto ProtoProofs ReadBlock
  BlockProofs Names PropsNames Segment SpecSegment SegmentProofs SegmentRunProofs PropsSegment PropsSegmentEx.
From Coq Require Import Permutation.
Open Scope nat_scope.

(** * C48 *)

(** A reader that finds the blocks of a column, given both files. *)
Definition C48_statement : Prop :=
  exists locate : list N -> list N -> list N -> list (list N),
    forall d p w base info w1 sg ops ci cops more it w2 sg2 rs blocks index data,
      0 < wd_max w -> is_id (si_segment_id info) -> segment_new w base info = (w1, Ok sg) ->
      orders_ok ((ops ++ SColumn ci cops :: more) ++ [SClose it]) ->
      seg_run p w1 sg ((ops ++ SColumn ci cops :: more) ++ [SClose it]) = Ret (w2, sg2, rs) -> all_ok rs ->
      column_blocks p ci cops = Ret blocks ->
      (* the only column of its name *)
      last_named (ci_name ci) (closed_columns ops) = None -> last_named (ci_name ci) (closed_columns more) = None ->
      directory_after d (wd_log w2) (index_path base (si_segment_id info)) = Some index ->
      directory_after d (wd_log w2) (data_path base (si_segment_id info)) = Some data ->
      locate index data (ci_name ci) = map snd blocks.

Definition ex_c : column_info := mkcinfo [99]%N TString Raw NoIndex false.

(** Whether the first column is given the buffer and the second none, or the
    other way round, makes no difference to the files. *)
Definition ex_first : list seg_op := [SColumn ex_a [CWrite ex_buf; CClose]; SColumn ex_c [CClose]].
Definition ex_second : list seg_op := [SColumn ex_a [CClose]; SColumn ex_c [CWrite ex_buf; CClose]].

Lemma ex_run ops blocks : supported ops -> segment_blocks Debug ops = Ret blocks ->
  exists w1 sg w2 sg2 rs, segment_new ex_world ex_base ex_info = (w1, Ok sg) /\ seg_run Debug w1 sg ops = Ret (w2, sg2, rs) /\ all_ok rs.
Proof.
  intros SU B. destruct (C45_no_false_alarm Debug ex_world ex_base ex_info ops blocks) as (w1 & sg & w2 & sg2 & rs & N & R & A & _); [cbn; lia|split; [reflexivity|repeat constructor]|constructor|exact SU|exact B|].
  exists w1, sg, w2, sg2, rs. split; [exact N|]. split; [exact R|exact A].
Qed.

Lemma ex_orders ops : orders_ok ops -> orders_ok (ops ++ [SClose ex_it]).
Proof. intros O. apply Forall_app. split; [exact O|]. constructor; [|constructor]. cbn. split; [apply Permutation_rev|apply Permutation_refl]. Qed.

Theorem C48_locate_refuted : ~ C48_statement.
Proof.
  intros (locate & L).
  assert (F : exists index data, forall ops, ops = ex_first \/ ops = ex_second ->
     exists w1 sg w2 sg2 rs, segment_new ex_world ex_base ex_info = (w1, Ok sg) /\ seg_run Debug w1 sg (ops ++ [SClose ex_it]) = Ret (w2, sg2, rs) /\ all_ok rs
       /\ directory_after (fun _ => None) (wd_log w2) (index_path ex_base (si_segment_id ex_info)) = Some index
       /\ directory_after (fun _ => None) (wd_log w2) (data_path ex_base (si_segment_id ex_info)) = Some data).
  { destruct (file_after (index_path ex_base (si_segment_id ex_info)) (run_from Debug ex_world ex_base ex_info (ex_first ++ [SClose ex_it]))) as [index|] eqn:EI; [|vm_compute in EI; discriminate].
    destruct (file_after (data_path ex_base (si_segment_id ex_info)) (run_from Debug ex_world ex_base ex_info (ex_first ++ [SClose ex_it]))) as [data|] eqn:ED; [|vm_compute in ED; discriminate].
    exists index, data. intros ops C.
    destruct (segment_blocks Debug (ops ++ [SClose ex_it])) as [bl|k|] eqn:B; [|destruct C as [-> | ->]; vm_compute in B; discriminate..].
    destruct (ex_run (ops ++ [SClose ex_it]) bl) as (w1 & sg & w2 & sg2 & rs & N & R & A); [destruct C as [-> | ->]; repeat constructor|exact B|].
    exists w1, sg, w2, sg2, rs. split; [exact N|]. split; [exact R|]. split; [exact A|].
    assert (FA : forall f, directory_after (fun _ => None) (wd_log w2) f = file_after f (run_from Debug ex_world ex_base ex_info (ops ++ [SClose ex_it])))
      by (intros f; unfold run_from; rewrite N, R; reflexivity).
    rewrite !FA, <- EI, <- ED. clear -C. split; destruct C as [-> | ->]; vm_compute; reflexivity. }
  destruct F as (index & data & F).
  destruct (F ex_first (or_introl eq_refl)) as (w1 & sg & w2 & sg2 & rs & N & R & A & DI & DD).
  destruct (F ex_second (or_intror eq_refl)) as (w1' & sg' & w2' & sg2' & rs' & N' & R' & A' & DI' & DD').
  destruct (column_blocks Debug ex_a [CWrite ex_buf; CClose]) as [bl|k|] eqn:B; [|vm_compute in B; discriminate..].
  assert (M : 0 < wd_max ex_world) by (cbn; lia). assert (ID : is_id (si_segment_id ex_info)) by (split; [reflexivity|repeat constructor]).
  pose proof (L _ Debug _ _ _ _ _ [] ex_a _ [SColumn ex_c [CClose]] _ _ _ _ _ _ _ M ID N (ex_orders ex_first ltac:(repeat constructor)) R A B eq_refl eq_refl DI DD) as L1.
  pose proof (L _ Debug _ _ _ _ _ [] ex_a [CClose] [SColumn ex_c [CWrite ex_buf; CClose]] _ _ _ _ [] _ _ M ID N' (ex_orders ex_second ltac:(repeat constructor)) R' A' eq_refl eq_refl eq_refl DI' DD') as L2.
  rewrite L2 in L1. clear -L1 B. vm_compute in B. injection B as <-. discriminate.
Qed.
Print Assumptions C48_locate_refuted.

(** In general the index file depends on nothing but the description of the
    segment, the columns closed and the order in which hash maps are iterated:
    not on the buffers, the blocks, the build profile or the data file. *)
Theorem C48_index_says_nothing_partial : forall d d' p p' w w' base base' info w1 sg w1' sg' ops ops' it w2 sg2 rs w2' sg2' rs',
  0 < wd_max w -> 0 < wd_max w' -> is_id (si_segment_id info) ->
  segment_new w base info = (w1, Ok sg) -> segment_new w' base' info = (w1', Ok sg') ->
  orders_ok (ops ++ [SClose it]) -> orders_ok (ops' ++ [SClose it]) ->
  seg_run p w1 sg (ops ++ [SClose it]) = Ret (w2, sg2, rs) -> all_ok rs ->
  seg_run p' w1' sg' (ops' ++ [SClose it]) = Ret (w2', sg2', rs') -> all_ok rs' ->
  outline ops = outline ops' ->
  directory_after d (wd_log w2) (index_path base (si_segment_id info)) = directory_after d' (wd_log w2') (index_path base' (si_segment_id info)).
Proof.
  intros d d' p p' w w' base base' info w1 sg w1' sg' ops ops' it w2 sg2 rs w2' sg2' rs' M M' ID N N' O O' H A H' A' E.
  destruct (closed_files d _ _ _ _ _ _ _ _ _ _ _ M ID N O H A) as (_ & mi & m & _ & F & S1 & -> & _ & _ & DI).
  destruct (closed_files d' _ _ _ _ _ _ _ _ _ _ _ M' ID N' O' H' A') as (_ & mi' & m' & _ & F' & S' & -> & _ & _ & DI').
  rewrite E in F, S1. rewrite F in F'. rewrite S1 in S'. apply app_inv_head in S'. subst mi'. rewrite DI, DI', F'. reflexivity.
Qed.
Print Assumptions C48_index_says_nothing_partial.

(** The range where the block index should be is always empty. *)
Theorem C48_range_empty_partial : forall d p w base info w1 sg ops it w2 sg2 rs file,
  0 < wd_max w -> is_id (si_segment_id info) -> segment_new w base info = (w1, Ok sg) ->
  orders_ok (ops ++ [SClose it]) -> seg_run p w1 sg (ops ++ [SClose it]) = Ret (w2, sg2, rs) -> all_ok rs ->
  directory_after d (wd_log w2) (index_path base (si_segment_id info)) = Some file ->
  (N.of_nat (length file) < 18446744073709551616)%N ->
  exists s lays, read_index_file file = Some (mkmeta (Some s) lays)
    /\ forall name l, In (name, l) lays -> cl_block_index l = Some (mkbil (Some (mkrange 0 0))) /\ cl_column_index l = None.
Proof.
  intros d p w base info w1 sg ops it w2 sg2 rs file M ID N O H A DF SZ.
  destruct (closed_read d p w base info w1 sg ops it w2 sg2 rs file M ID N O H A DF SZ) as (cols & lays & R & _ & (ND & D)).
  eexists _, lays. split; [exact R|]. intros name l I. apply (assoc_in _ _ _ ND) in I. rewrite D in I.
  destruct (last_named name (closed_columns ops)) as [ci|]; [|discriminate]. injection I as <-. split; reflexivity.
Qed.
Print Assumptions C48_range_empty_partial.

(** * C50 *)

(** Only files satisfying [P] are touched between [w] and [w']. *)
Definition touches (P : path -> Prop) (w w' : world) : Prop :=
  exists more, wd_log w' = wd_log w ++ more /\ Forall (fun e => P (event_path e)) more.

Lemma touches_refl P w : touches P w w.
Proof. exists []. rewrite app_nil_r. split; [reflexivity|constructor]. Qed.

Lemma touches_trans P a b c : touches P a b -> touches P b c -> touches P a c.
Proof. intros (m & L & F) (m' & L' & F'). exists (m ++ m'). rewrite L', L, app_assoc. split; [reflexivity|]. apply Forall_app. auto. Qed.

Lemma extends_touches f (P : path -> Prop) w w' : extends f w w' -> P f -> touches P w w'.
Proof. intros (_ & m & L & F & _) H. exists m. split; [exact L|]. eapply Forall_impl; [|exact F]. cbn. intros e [-> _]. exact H. Qed.

Lemma touches_dir P d w w' f : touches P w w' -> ~ P f -> directory_after d (wd_log w') f = directory_after d (wd_log w) f.
Proof.
  intros (m & L & F) NP. rewrite L, directory_after_app. apply directory_after_other. eapply Forall_impl; [|exact F]. cbn. intros e H E. apply NP. rewrite <- E. exact H.
Qed.

(** As before, by appending and syncing only. *)
Definition grows (P : path -> Prop) (w w' : world) : Prop :=
  exists more, wd_log w' = wd_log w ++ more /\ Forall (fun e => P (event_path e) /\ forall g, e <> FCreate g) more.

Lemma grows_refl P w : grows P w w.
Proof. exists []. rewrite app_nil_r. split; [reflexivity|constructor]. Qed.

Lemma grows_trans P a b c : grows P a b -> grows P b c -> grows P a c.
Proof. intros (m & L & F) (m' & L' & F'). exists (m ++ m'). rewrite L', L, app_assoc. split; [reflexivity|]. apply Forall_app. auto. Qed.

Lemma extends_grows f (P : path -> Prop) w w' : extends f w w' -> P f -> grows P w w'.
Proof.
  intros (_ & m & L & F & _) H. exists m. split; [exact L|]. eapply Forall_impl; [|exact F]. cbn. intros e [<- E]. split; [exact H|].
  intros g ->. apply E. reflexivity.
Qed.

Lemma grows_touches P w w' : grows P w w' -> touches P w w'.
Proof. intros (m & L & F). exists m. split; [exact L|]. eapply Forall_impl; [|exact F]. cbn. intros e [H _]. exact H. Qed.

(** Nothing that is in a file goes away. *)
Lemma grows_dir P d w w' f c : grows P w w' -> directory_after d (wd_log w) f = Some c ->
  exists more, directory_after d (wd_log w') f = Some (c ++ more).
Proof.
  intros (m & L & F) H. rewrite L, directory_after_app. revert H. generalize (directory_after d (wd_log w)). clear L. revert c.
  induction F as [|e m [_ NC] F IH]; intros c d0 H; [exists []; rewrite app_nil_r; exact H|].
  unfold directory_after in IH |- *. cbn [fold_left]. destruct e as [g|g bs|g]; [exfalso; apply (NC g); reflexivity| |].
  - destruct (path_dec f g) as [Efg|Nfg].
    + destruct (IH (c ++ bs) (apply_effect d0 (FAppend g bs))) as [more E]; [cbn; destruct (path_dec f g); [rewrite H; reflexivity|contradiction]|].
      exists (bs ++ more). rewrite E, app_assoc. reflexivity.
    + apply IH. cbn. destruct (path_dec f g); [contradiction|exact H].
  - apply IH. exact H.
Qed.

Section Touch.
Context (d : directory) (p : profile) (fd fi : path) (NE : fd <> fi).
Let P f := f = fd \/ f = fi.

Definition both_open (w : world) (sg : segment) : Prop := opened d fd w (sg_data sg) /\ opened d fi w (sg_index sg).

Lemma column_run_grows ops : forall w sg cw w1 sg1 rs, both_open w sg -> column_run p w sg cw ops = Ret (w1, sg1, rs) ->
  grows P w w1 /\ both_open w1 sg1.
Proof.
  induction ops as [|o ops IH]; intros w sg cw w1 sg1 rs B H; cbn [column_run] in H.
  - injection H as <- <- <-. split; [apply grows_refl|exact B].
  - destruct (column_step p w sg cw o) as [[[[w0 sg0] cw0] res]|k|] eqn:E; cbn [bind] in H; try discriminate.
    destruct (column_run p w0 sg0 cw0 ops) as [[[w2 sg2] more]|k|] eqn:R; cbn [bind] in H; try discriminate. injection H as <- <- <-.
    assert (G : grows P w w0 /\ both_open w0 sg0).
    { destruct B as [BD BI]. destruct o as [b|]; cbn [column_step] in E.
      - unfold column_write in E. destruct (bin_encode sink_write p (cw_encoder cw) b _) as [[[e [[wx dt] bi]] r0]|k|] eqn:X; cbn [bind] in E; try discriminate.
        injection E as <- <- <- <-. destruct (bin_encode_feed _ _ _ _ _ _ _ _ X) as (_ & bl & F & _).
        destruct (feed_touch d fd _ _ _ _ _ _ _ _ F BD) as (Y & OD). split; [eapply extends_grows; [exact Y|left; reflexivity]|].
        split; [exact OD|eapply opened_other; [exact Y|exact NE|exact BI]].
      - unfold column_close in E. destruct (bin_flush sink_write p (cw_encoder cw) _) as [[[e [[wx dt] bi]] r0]|k|] eqn:X; cbn [bind] in E; try discriminate.
        destruct (bin_flush_feed _ _ _ _ _ _ _ X) as (_ & bl & r1 & F & _).
        destruct (feed_touch d fd _ _ _ _ _ _ _ _ F BD) as (Y & OD).
        assert (Z : w0 = wx /\ sg_data sg0 = dt /\ sg_index sg0 = sg_index sg)
          by (destruct r0; [destruct (md_segment_meta (sg_meta sg)); [|discriminate]|]; injection E as <- <- <- <-; auto).
        destruct Z as (-> & ZD & ZI). split; [eapply extends_grows; [exact Y|left; reflexivity]|]. unfold both_open. rewrite ZD, ZI.
        split; [exact OD|eapply opened_other; [exact Y|exact NE|exact BI]]. }
    destruct G as (G1 & G2). destruct (IH _ _ _ _ _ _ G2 R) as (G3 & G4). split; [eapply grows_trans; eassumption|exact G4].
Qed.

Lemma segment_close_grows w sg it w1 sg1 r : both_open w sg -> segment_close w sg it = (w1, sg1, r) -> grows P w w1 /\ both_open w1 sg1.
Proof.
  intros (BD & BI) H. unfold segment_close in H. cbn zeta in H. assert (NE' : fi <> fd) by congruence.
  match type of H with context [writer_write_block w (sg_index sg) ?b] => destruct (writer_write_block w (sg_index sg) b) as [[wa ia] ra] eqn:Wa end.
  destruct (write_touch _ _ _ _ _ _ _ _ BI Wa) as (Xa & Oa & _). clear Wa. assert (Ta : grows P w wa) by (eapply extends_grows; [exact Xa|right; reflexivity]).
  assert (Da : opened d fd wa (sg_data sg)) by (eapply opened_other; [exact Xa|exact NE'|exact BD]).
  destruct ra; [|injection H as <- <- <-; split; [exact Ta|split; assumption]].
  match type of H with context [writer_write_block wa ia ?b] => destruct (writer_write_block wa ia b) as [[wb ib] rb] eqn:Wb end.
  destruct (write_touch _ _ _ _ _ _ _ _ Oa Wb) as (Xb & Ob & _). clear Wb. assert (Tb : grows P w wb) by (eapply grows_trans; [exact Ta|eapply extends_grows; [exact Xb|right; reflexivity]]).
  assert (Db : opened d fd wb (sg_data sg)) by (eapply opened_other; [exact Xb|exact NE'|exact Da]).
  destruct rb; [|injection H as <- <- <-; split; [exact Tb|split; assumption]].
  destruct (writer_flush wb ib) as [[wc ic] rc] eqn:Wc. destruct (flush_touch _ _ _ _ _ _ _ Ob Wc) as (Xc & Oc & _).
  assert (Tc : grows P w wc) by (eapply grows_trans; [exact Tb|eapply extends_grows; [exact Xc|right; reflexivity]]).
  assert (Dc : opened d fd wc (sg_data sg)) by (eapply opened_other; [exact Xc|exact NE'|exact Db]).
  destruct rc; [|injection H as <- <- <-; split; [exact Tc|split; assumption]].
  destruct (writer_flush wc (sg_data sg)) as [[wd dt] rd] eqn:Wd. destruct (flush_touch _ _ _ _ _ _ _ Dc Wd) as (Xd & Od & _). injection H as <- <- <-.
  split; [eapply grows_trans; [exact Tc|eapply extends_grows; [exact Xd|left; reflexivity]]|]. split; [exact Od|eapply opened_other; [exact Xd|exact NE|exact Oc]].
Qed.

Lemma seg_run_grows ops : forall w sg w1 sg1 rs, both_open w sg -> seg_run p w sg ops = Ret (w1, sg1, rs) -> grows P w w1 /\ both_open w1 sg1.
Proof.
  induction ops as [|o ops IH]; intros w sg w1 sg1 rs B H; cbn [seg_run] in H.
  - injection H as <- <- <-. split; [apply grows_refl|exact B].
  - destruct (seg_step p w sg o) as [[[w0 sg0] r0]|k|] eqn:E; cbn [bind] in H; try discriminate.
    destruct (seg_run p w0 sg0 ops) as [[[w2 sg2] more]|k|] eqn:R; cbn [bind] in H; try discriminate. injection H as <- <- <-.
    assert (G : grows P w w0 /\ both_open w0 sg0).
    { destruct o as [ci cops|it]; cbn [seg_step] in E.
      - destruct (new_binary_column_writer sg ci) as [sn rn] eqn:NW. assert (BN : both_open w sn) by (unfold new_binary_column_writer in NW; injection NW as <- <-; exact B).
        destruct rn as [cw|]; [|injection E as <- <- <-; split; [apply grows_refl|exact BN]].
        destruct (column_run p w sn cw cops) as [[[wx sx] rx]|k|] eqn:CR; cbn [bind] in E; try discriminate. injection E as <- <- <-.
        eapply column_run_grows; eassumption.
      - destruct (segment_close w sg it) as [[wx sx] rx] eqn:C. injection E as <- <- <-. eapply segment_close_grows; eassumption. }
    destruct G as (G1 & G2). destruct (IH _ _ _ _ _ G2 R) as (G3 & G4). split; [eapply grows_trans; eassumption|exact G4].
Qed.

Lemma segment_sync_grows w sg w1 r : both_open w sg -> segment_sync w sg = (w1, r) -> grows P w w1.
Proof.
  intros (BD & BI) H. unfold segment_sync in H. destruct (writer_sync w (sg_index sg)) as [[wa ia] ra] eqn:Sa.
  destruct (sync_touch _ _ _ _ _ _ _ BI Sa) as (Xa & _). assert (Ta : grows P w wa) by (eapply extends_grows; [exact Xa|right; reflexivity]).
  destruct ra; [|injection H as <- <-; exact Ta].
  destruct (writer_sync wa (sg_data sg)) as [[wb db] rb] eqn:Sb. injection H as <- <-.
  assert (Da : opened d fd wa (sg_data sg)) by (eapply opened_other; [exact Xa|congruence|exact BD]).
  destruct (sync_touch _ _ _ _ _ _ _ Da Sb) as (Xb & _). eapply grows_trans; [exact Ta|]. eapply extends_grows; [exact Xb|left; reflexivity].
Qed.
End Touch.

Lemma seg_run_touches d p fd fi (NE : fd <> fi) ops w sg w1 sg1 rs : both_open d fd fi w sg -> seg_run p w sg ops = Ret (w1, sg1, rs) ->
  touches (fun f => f = fd \/ f = fi) w w1 /\ both_open d fd fi w1 sg1.
Proof. intros B H. destruct (seg_run_grows d p fd fi NE _ _ _ _ _ _ B H) as (G & B1). split; [apply grows_touches; exact G|exact B1]. Qed.

Lemma segment_sync_touches d fd fi (NE : fd <> fi) w sg w1 r : both_open d fd fi w sg -> segment_sync w sg = (w1, r) -> touches (fun f => f = fd \/ f = fi) w w1.
Proof. intros B H. apply grows_touches. eapply segment_sync_grows; eassumption. Qed.


Lemma writer_new_touches d w f w1 r : 0 < wd_max w -> writer_new w f = (w1, r) ->
  touches (fun g => g = f) w w1 /\ wd_max w1 = wd_max w
  /\ match r with Ok wr => opened d f w1 wr /\ tf_err (wr_file wr) = false /\ holds d w1 f [] /\ tf_busy (wr_file wr) = None | Err => True end.
Proof.
  intros M H. unfold writer_new, tk_create in H. destruct (next_fate w) as [fate w0] eqn:NF. destruct (next_fate_inv _ _ _ NF) as (HL & HM & _).
  destruct fate as [k|]; injection H as <- <-.
  - split; [exists []; rewrite app_nil_r; split; [exact HL|constructor]|]. split; [exact HM|exact I].
  - split; [exists [FCreate f]; cbn [effect wd_log]; rewrite HL; split; [reflexivity|repeat constructor]|]. split; [exact HM|].
    assert (HO : holds d (effect w0 (FCreate f)) f []) by (unfold holds; cbn [effect wd_log]; rewrite directory_after_app; cbn [directory_after fold_left apply_effect]; destruct (path_dec f f); congruence).
    split; [|split; [reflexivity|split; [exact HO|reflexivity]]]. split; [cbn; lia|]. split; [reflexivity|]. exists []. exact HO.
Qed.

Lemma segment_new_touches d w base info w1 r : 0 < wd_max w -> is_id (si_segment_id info) -> segment_new w base info = (w1, r) ->
  let fd := data_path base (si_segment_id info) in let fi := index_path base (si_segment_id info) in
  touches (fun f => f = fd \/ f = fi) w w1 /\ match r with Ok sg => both_open d fd fi w1 sg | Err => True end.
Proof.
  intros M ID H fd fi. destruct (C49_distinct base _ _ ID ID) as (_ & _ & NE). fold fd fi in NE. unfold segment_new in H. fold fd fi in H.
  destruct (writer_new w fi) as [wa ra] eqn:Na. destruct (writer_new_touches d _ _ _ _ M Na) as (Ta & Ma & Oa).
  assert (Ta' : touches (fun f => f = fd \/ f = fi) w wa) by (destruct Ta as (m & L & F); exists m; split; [exact L|]; eapply Forall_impl; [|exact F]; cbn; tauto).
  destruct ra as [ix|]; [|injection H as <- <-; split; [exact Ta'|exact I]]. destruct Oa as (Oa & _).
  destruct (writer_new wa fd) as [wb rb] eqn:Nb. destruct (writer_new_touches d wa fd wb rb ltac:(lia) Nb) as (Tb & Mb & Ob).
  assert (Tb' : touches (fun f => f = fd \/ f = fi) w wb) by (eapply touches_trans; [exact Ta'|]; destruct Tb as (m & L & F); exists m; split; [exact L|]; eapply Forall_impl; [|exact F]; cbn; tauto).
  destruct rb as [dt|]; [|injection H as <- <-; split; [exact Tb'|exact I]]. destruct Ob as (Ob & _).
  assert (Oi : opened d fi wb ix).
  { destruct Oa as (M0 & P0 & c & H0). split; [lia|]. split; [exact P0|]. exists c. unfold holds in *. rewrite (touches_dir _ d _ _ _ Tb); [exact H0|congruence]. }
  unfold write_headers in H. cbn [sg_index sg_data sg_block_index sg_meta] in H.
  destruct (writer_write_block wb ix index_file_signature) as [[wc ic] rc] eqn:Wc. destruct (write_touch _ _ _ _ _ _ _ _ Oi Wc) as (Xc & Oc & _).
  assert (Tc : touches (fun f => f = fd \/ f = fi) w wc) by (eapply touches_trans; [exact Tb'|eapply extends_touches; [exact Xc|right; reflexivity]]).
  destruct rc; [|injection H as <- <-; split; [exact Tc|exact I]].
  assert (Od : opened d fd wc dt) by (eapply opened_other; [exact Xc|congruence|exact Ob]).
  destruct (writer_write_block wc dt data_file_signature) as [[we de] re] eqn:We. destruct (write_touch _ _ _ _ _ _ _ _ Od We) as (Xe & Oe & _).
  injection H as <- <-. split; [eapply touches_trans; [exact Tc|eapply extends_touches; [exact Xe|left; reflexivity]]|].
  destruct re; [|exact I]. split; [exact Oe|eapply opened_other; [exact Xe|exact NE|exact Oc]].
Qed.

(** Whatever succeeds or fails, files other than the two of the segment are as
    before. *)
Theorem C50_no_other_file : forall d p w base info w1 r f,
  0 < wd_max w -> is_id (si_segment_id info) -> segment_new w base info = (w1, r) ->
  f <> data_path base (si_segment_id info) -> f <> index_path base (si_segment_id info) ->
  directory_after d (wd_log w1) f = directory_after d (wd_log w) f
  /\ forall sg ops w2 sg2 rs, r = Ok sg -> seg_run p w1 sg ops = Ret (w2, sg2, rs) ->
       directory_after d (wd_log w2) f = directory_after d (wd_log w) f
       /\ forall w3 r3, segment_sync w2 sg2 = (w3, r3) -> directory_after d (wd_log w3) f = directory_after d (wd_log w) f.
Proof.
  intros d p w base info w1 r f M ID N ND NI. destruct (C49_distinct base _ _ ID ID) as (_ & _ & NE).
  destruct (segment_new_touches d _ _ _ _ _ M ID N) as (T & B).
  assert (NP : ~ (f = data_path base (si_segment_id info) \/ f = index_path base (si_segment_id info))) by tauto.
  assert (D1 := touches_dir _ d _ _ _ T NP). split; [exact D1|]. intros sg ops w2 sg2 rs -> R.
  destruct (seg_run_touches d p _ _ NE _ _ _ _ _ _ B R) as (T2 & B2). assert (D2 := touches_dir _ d _ _ _ T2 NP). split; [congruence|].
  intros w3 r3 S3. assert (D3 := touches_dir _ d _ _ _ (segment_sync_touches d _ _ NE _ _ _ _ B2 S3) NP). congruence.
Qed.
Print Assumptions C50_no_other_file.

(** After creating a segment, nothing is left of files that had the names: both
    hold (the part written so far of) the signatures. *)
Theorem C50_truncates : forall d w base info w1 sg,
  0 < wd_max w -> is_id (si_segment_id info) -> segment_new w base info = (w1, Ok sg) ->
  (exists k, directory_after d (wd_log w1) (data_path base (si_segment_id info)) = Some (firstn k data_file_signature))
  /\ (exists k, directory_after d (wd_log w1) (index_path base (si_segment_id info)) = Some (firstn k index_file_signature)).
Proof.
  intros d w base info w1 sg M ID N. destruct (C49_distinct base _ _ ID ID) as (_ & _ & NE).
  destruct (segment_new_ok d Debug _ _ _ _ _ M ID N) as (bl & idx & B & MK & (SD & SI & _ & _ & _)).
  cbn in B. injection B as <-. unfold outline in MK. cbn [flat_map fold_left] in MK.
  assert (idx = []) by (apply (app_inv_head index_file_signature); rewrite app_nil_r; congruence). subst idx. unfold bytes_in in SD. cbn [map concat] in SD. rewrite app_nil_r in SD, SI.
  assert (ER : tf_err (wr_file (sg_data sg)) = false /\ tf_err (wr_file (sg_index sg)) = false).
  { clear -d M N NE. unfold segment_new in N. destruct (writer_new w _) as [wa [ix|]] eqn:Na; [|discriminate]. destruct (writer_new_touches d _ _ _ _ M Na) as (_ & Ma & Oa & Ea & _).
    destruct (writer_new wa _) as [wb [dt|]] eqn:Nb; [|discriminate]. destruct (writer_new_touches d wa _ _ _ ltac:(lia) Nb) as (Tb & Mb & Ob & Eb & _).
    unfold write_headers in N. cbn [sg_index sg_data sg_block_index sg_meta] in N.
    destruct (writer_write_block wb ix index_file_signature) as [[wc ic] [[]|]] eqn:Wc; [|discriminate].
    assert (Oi : opened d (index_path base (si_segment_id info)) wb ix).
    { destruct Oa as (M0 & P0 & c & H0). split; [lia|]. split; [exact P0|]. exists c. unfold holds in *. rewrite (touches_dir _ d _ _ _ Tb); [exact H0|congruence]. }
    destruct (write_touch _ _ _ _ _ _ _ _ Oi Wc) as (Xc & _ & _ & _ & HX).
    destruct (writer_write_block wc dt data_file_signature) as [[we de] [[]|]] eqn:We; [|discriminate].
    assert (Od : opened d (data_path base (si_segment_id info)) wc dt) by (eapply opened_other; [exact Xc|congruence|exact Ob]).
    destruct (write_touch _ _ _ _ _ _ _ _ Od We) as (_ & _ & _ & _ & HX2). injection N as <- <-. cbn [sg_data sg_index]. auto. }
  destruct ER as [ED EI]. destruct SD as (_ & _ & c & HC & [X|EQ]); [congruence|]. destruct SI as (_ & _ & c' & HC' & [X|EQ']); [congruence|].
  split; [exists (length c); rewrite <- EQ|exists (length c'); rewrite <- EQ']; rewrite firstn_app, firstn_all, Nat.sub_diag; cbn [firstn]; rewrite app_nil_r; assumption.
Qed.
Print Assumptions C50_truncates.

(** An old file of the same name and another one. *)
Theorem C50_witness :
  let d f := if path_dec f (data_path ex_base (si_segment_id ex_info)) then Some [1; 2; 3]%N
             else if path_dec f [120]%N then Some [9]%N else None in
  exists w2 sg2 rs,
    run_from Debug ex_world ex_base ex_info [SColumn ex_c [CWrite ex_buf]; SClose ex_it] = Some (w2, sg2, rs)
    /\ directory_after d (wd_log w2) [120]%N = Some [9]%N
    /\ option_map (firstn 3) (directory_after d (wd_log w2) (data_path ex_base (si_segment_id ex_info))) = Some [77; 69; 69]%N.
Proof.
  cbn zeta. destruct (run_from Debug ex_world ex_base ex_info [SColumn ex_c [CWrite ex_buf]; SClose ex_it]) as [[[w2 sg2] rs]|] eqn:E; [|vm_compute in E; discriminate].
  exists w2, sg2, rs. split; [reflexivity|]. apply (f_equal (fun r => match r with Some (w, _, _) => wd_log w | _ => [] end)) in E. cbn beta iota in E. rewrite <- E.
  split; vm_compute; reflexivity.
Qed.
Print Assumptions C50_witness.

(** * C62: failing to create a segment leaves an existing one alone *)

Definition C62_statement : Prop := forall (d : directory) w base info w1,
  0 < wd_max w -> is_id (si_segment_id info) -> segment_new w base info = (w1, Err) ->
  directory_after d (wd_log w1) (index_path base (si_segment_id info)) = directory_after d (wd_log w) (index_path base (si_segment_id info))
  /\ directory_after d (wd_log w1) (data_path base (si_segment_id info)) = directory_after d (wd_log w) (data_path base (si_segment_id info)).

(** The data file cannot be opened: the index file is already empty. *)
Theorem C62_refuted : ~ C62_statement.
Proof.
  intros H. specialize (H (fun _ => Some [1; 2; 3]%N) (mkworld [] [None; Some 0] 50) ex_base ex_info (mkworld [FCreate (index_path ex_base (si_segment_id ex_info))] [] 50)).
  destruct H as [H _]; [cbn; lia|split; [reflexivity|repeat constructor]|vm_compute; reflexivity|]. vm_compute in H. discriminate.
Qed.
Print Assumptions C62_refuted.

(** Exactly the files opened before the failure are lost: if the index file could
    not be opened, none; if the data file could not, the index file. *)
Theorem C62_exact_partial : forall d w base info w1,
  0 < wd_max w -> is_id (si_segment_id info) -> segment_new w base info = (w1, Err) ->
  (fst (next_fate w) <> None -> directory_after d (wd_log w1) = directory_after d (wd_log w))
  /\ (fst (next_fate w) = None -> fst (next_fate (snd (next_fate w))) <> None ->
      directory_after d (wd_log w1) (index_path base (si_segment_id info)) = Some []
      /\ directory_after d (wd_log w1) (data_path base (si_segment_id info)) = directory_after d (wd_log w) (data_path base (si_segment_id info))).
Proof.
  intros d w base info w1 M ID N. destruct (C49_distinct base _ _ ID ID) as (_ & _ & NE). unfold segment_new in N. split.
  - intros F. unfold writer_new at 1, tk_create in N. destruct (next_fate w) as [[k|] w0] eqn:NF; cbn [fst] in F; [|congruence].
    injection N as <-. destruct (next_fate_inv _ _ _ NF) as (-> & _). reflexivity.
  - intros F1 F2. unfold writer_new at 1, tk_create in N. destruct (next_fate w) as [[k|] w0] eqn:NF; cbn [fst snd] in F1, F2; [discriminate|].
    destruct (next_fate_inv _ _ _ NF) as (L0 & _). unfold writer_new, tk_create in N.
    assert (NX : next_fate (effect w0 (FCreate (index_path base (si_segment_id info)))) = (fst (next_fate w0), effect (snd (next_fate w0)) (FCreate (index_path base (si_segment_id info))))).
    { clear. destruct w0 as [lg [|x l] mx]; reflexivity. }
    rewrite NX in N. destruct (fst (next_fate w0)) as [k|]; [|congruence]. injection N as <-.
    assert (L1 : wd_log (effect (snd (next_fate w0)) (FCreate (index_path base (si_segment_id info)))) = wd_log w ++ [FCreate (index_path base (si_segment_id info))]).
    { cbn [effect wd_log]. rewrite <- L0. unfold next_fate. destruct (wd_plan w0); reflexivity. }
    rewrite L1, !directory_after_app. cbn [directory_after fold_left apply_effect].
    destruct (path_dec (index_path base (si_segment_id info)) (index_path base (si_segment_id info))); [|congruence].
    destruct (path_dec (data_path base (si_segment_id info)) (index_path base (si_segment_id info))); [congruence|]. auto.
Qed.
Print Assumptions C62_exact_partial.

(** * C52 *)

Theorem C52_supported : forall sg ci,
  (exists cw sg1, new_binary_column_writer sg ci = (sg1, Ok cw)) <-> ci_encoding ci = Raw \/ ci_encoding ci = Snappy.
Proof.
  intros sg ci. unfold new_binary_column_writer, new_binary_encoder. split.
  - intros (cw & sg1 & H). destruct (ci_encoding ci); try discriminate; auto.
  - intros [-> | ->]; eexists _, _; reflexivity.
Qed.
Print Assumptions C52_supported.

Theorem C52_supported_fixed_width : forall enc size nullable,
  ((exists e, new_i32_encoder enc size nullable = Ok e) <-> enc = Raw)
  /\ ((exists e, new_i64_encoder enc size nullable = Ok e) <-> enc = Raw)
  /\ ((exists e, new_u64_encoder enc size nullable = Ok e) <-> enc = Raw)
  /\ ((exists e, new_f64_encoder enc size nullable = Ok e) <-> enc = Raw).
Proof.
  intros enc size nullable. unfold new_i32_encoder, new_i64_encoder, new_u64_encoder, new_f64_encoder.
  split; [|split; [|split]]; (split; [intros (e & H); destruct enc; congruence|intros ->; eexists; reflexivity]).
Qed.
Print Assumptions C52_supported_fixed_width.

(** A rejected column changes neither writers nor metadata... *)
Theorem C52_rejected_keeps : forall p w sg ci cops w1 sg1 rs,
  ci_encoding ci <> Raw -> ci_encoding ci <> Snappy -> seg_step p w sg (SColumn ci cops) = Ret (w1, sg1, rs) ->
  rs = [Err] /\ w1 = w /\ sg_data sg1 = sg_data sg /\ sg_index sg1 = sg_index sg /\ sg_meta sg1 = sg_meta sg.
Proof.
  intros p w sg ci cops w1 sg1 rs N1 N2 H. cbn [seg_step] in H. unfold new_binary_column_writer, new_binary_encoder in H.
  destruct (ci_encoding ci); try congruence; injection H as <- <- <-; auto.
Qed.
Print Assumptions C52_rejected_keeps.

(** ... so that what the files will be, and all later reports, are the same as
    without it. *)
Theorem C52_rejected_without_trace : forall p w sg a ci cops b w1 sg1 rs,
  ci_encoding ci <> Raw -> ci_encoding ci <> Snappy ->
  seg_run p w sg (a ++ SColumn ci cops :: b) = Ret (w1, sg1, rs) ->
  exists sg1' ra rb, seg_run p w sg (a ++ b) = Ret (w1, sg1', ra ++ rb) /\ rs = ra ++ Err :: rb
    /\ sg_data sg1' = sg_data sg1 /\ sg_index sg1' = sg_index sg1 /\ sg_meta sg1' = sg_meta sg1.
Proof.
  intros p w sg a ci cops b w1 sg1 rs N1 N2 H. rewrite seg_run_app in H. destruct (seg_run p w sg a) as [[[wa sa] ra]|k|] eqn:Ra; cbn [bind] in H; try discriminate.
  cbn [seg_run] in H. destruct (seg_step p wa sa (SColumn ci cops)) as [[[wx sx] rx]|k|] eqn:E; cbn [bind] in H; try discriminate.
  destruct (C52_rejected_keeps _ _ _ _ _ _ _ _ N1 N2 E) as (-> & -> & ED & EI & EM).
  destruct (seg_run p wa sx b) as [[[wb sb] rb]|k|] eqn:Rb; cbn [bind] in H; try discriminate. injection H as <- <- <-.
  assert (G : forall b w s s' w1 s1 rs, sg_data s = sg_data s' -> sg_index s = sg_index s' -> sg_meta s = sg_meta s' -> seg_run p w s b = Ret (w1, s1, rs) ->
            exists s1', seg_run p w s' b = Ret (w1, s1', rs) /\ sg_data s1' = sg_data s1 /\ sg_index s1' = sg_index s1 /\ sg_meta s1' = sg_meta s1).
  { clear. induction b as [|o b IH]; intros w s s' w1 s1 rs ED EI EM H; cbn [seg_run] in H |- *.
    - injection H as <- <- <-. exists s'. auto.
    - destruct o as [ci cops|it]; cbn [seg_step] in H |- *.
      + unfold new_binary_column_writer in *. rewrite <- ED, <- EI, <- EM. change (bi_clear (sg_block_index s')) with (bi_clear (sg_block_index s)). rewrite H. eauto.
      + unfold segment_close in *. cbn zeta in *. rewrite <- ED, <- EI, <- EM.
        repeat match goal with
        | H : context [match ?x with (_, _) => _ end] |- _ => match x with writer_write_block _ _ _ => destruct x as [[? ?] [[]|]] | writer_flush _ _ => destruct x as [[? ?] [[]|]] end
        end; cbn [bind] in H |- *;
        (match type of H with context [seg_run p ?w ?s b] =>
           destruct (seg_run p w s b) as [[[wz sz] rz]|k|] eqn:Z; cbn [bind] in H; try discriminate;
           match goal with |- context [seg_run p w ?s' b] => destruct (IH w s s' wz sz rz) as (s1' & Z' & Q) end;
           [auto..|]; rewrite Z'; cbn [bind]; injection H as <- <- <-; exists s1'; split; [reflexivity|exact Q] end). }
  destruct (G _ _ _ _ _ _ _ ED EI EM Rb) as (s1' & R' & Q). exists s1', ra, rb. split; [|split; [reflexivity|exact Q]].
  rewrite seg_run_app, Ra. cbn [bind]. rewrite R'. reflexivity.
Qed.
Print Assumptions C52_rejected_without_trace.

Theorem C52_witness :
  exists w2 sg2 rs, run_from Debug ex_world ex_base ex_info [SColumn ex_a [CWrite ex_buf]; SColumn (mkcinfo [120]%N TString RleDictionary NoIndex true) [CWrite ex_buf; CClose]; SClose ex_it]
    = Some (w2, sg2, rs) /\ rs = [Ok tt; Ok tt; Err; Ok tt].
Proof.
  destruct (run_from _ _ _ _ _) as [[[w2 sg2] rs]|] eqn:E; [|vm_compute in E; discriminate]. exists w2, sg2, rs. split; [reflexivity|].
  apply (f_equal (fun r => match r with Some (_, _, rs) => rs | _ => [] end)) in E. cbn beta iota in E. rewrite <- E. vm_compute. reflexivity.
Qed.
Print Assumptions C52_witness.

(** * C53 *)

(** A reader that recovers the data of the buffers written to a column, given
    both files. *)
Definition C53_statement : Prop :=
  exists recover : list N -> list N -> list N,
    forall d p w base info w1 sg ci b it w2 sg2 rs index data,
      0 < wd_max w -> is_id (si_segment_id info) -> segment_new w base info = (w1, Ok sg) -> ci_encoding ci = Snappy ->
      orders_ok [SClose it] ->
      seg_run p w1 sg [SColumn ci [CWrite b; CClose]; SClose it] = Ret (w2, sg2, rs) -> all_ok rs ->
      directory_after d (wd_log w2) (index_path base (si_segment_id info)) = Some index ->
      directory_after d (wd_log w2) (data_path base (si_segment_id info)) = Some data ->
      recover index data = bb_data b.

(** The blocks of a snappy column: the same fixed bytes for every buffer. *)
Theorem C53_exact_partial : forall p ci ops, ci_encoding ci = Snappy ->
  column_blocks p ci ops = Ret (flat_map (fun o => match o with CWrite _ => [(43243, [115; 110; 97; 112; 112; 121])] | CClose => [] end) ops)%N.
Proof.
  intros p ci ops E. unfold column_blocks. rewrite E. cbn [new_binary_encoder].
  assert (G : forall ops acc, encoder_run p SnappyEnc ops acc = Ret (acc ++ flat_map (fun o => match o with CWrite _ => [(43243, [115; 110; 97; 112; 112; 121])] | CClose => [] end) ops)%N).
  { clear. induction ops as [|[b|] ops IH]; intros acc; cbn [encoder_run flat_map].
    - rewrite app_nil_r. reflexivity.
    - unfold bin_encode, collect. cbn [bind fst snd]. rewrite IH, <- app_assoc. reflexivity.
    - unfold bin_flush. cbn [bind app]. apply IH. }
  apply G.
Qed.
Print Assumptions C53_exact_partial.

(** Both files are the same whatever buffers are given to snappy columns. *)
Theorem C53_files_ignore_buffers_partial : forall d p w base info w1 sg a ci b b' c it w2 sg2 rs w2' sg2' rs',
  0 < wd_max w -> is_id (si_segment_id info) -> segment_new w base info = (w1, Ok sg) -> ci_encoding ci = Snappy ->
  orders_ok ((a ++ SColumn ci [CWrite b; CClose] :: c) ++ [SClose it]) ->
  seg_run p w1 sg ((a ++ SColumn ci [CWrite b; CClose] :: c) ++ [SClose it]) = Ret (w2, sg2, rs) -> all_ok rs ->
  seg_run p w1 sg ((a ++ SColumn ci [CWrite b'; CClose] :: c) ++ [SClose it]) = Ret (w2', sg2', rs') -> all_ok rs' ->
  directory_after d (wd_log w2) (index_path base (si_segment_id info)) = directory_after d (wd_log w2') (index_path base (si_segment_id info))
  /\ directory_after d (wd_log w2) (data_path base (si_segment_id info)) = directory_after d (wd_log w2') (data_path base (si_segment_id info)).
Proof.
  intros d p w base info w1 sg a ci b b' c it w2 sg2 rs w2' sg2' rs' M ID N SN O H A H' A'.
  assert (O' : orders_ok ((a ++ SColumn ci [CWrite b'; CClose] :: c) ++ [SClose it])).
  { unfold orders_ok in *. rewrite !Forall_app in *. destruct O as [[O1 O2] O3]. split; [|exact O3]. split; [exact O1|]. apply Forall_cons_iff in O2. destruct O2 as [_ O2]. constructor; [exact I|exact O2]. }
  split.
  - refine (C48_index_says_nothing_partial d d p p w w base base info _ _ _ _ _ _ _ _ _ _ _ _ _ M M ID N N O O' H A H' A' _). unfold outline. rewrite !flat_map_app. reflexivity.
  - destruct (C45_data_file d _ _ _ _ _ _ _ _ _ _ _ M ID N O H A) as (bl & B & ->). destruct (C45_data_file d _ _ _ _ _ _ _ _ _ _ _ M ID N O' H' A') as (bl' & B' & ->).
    rewrite segment_blocks_app in B, B'. cbn [segment_blocks] in B, B'. rewrite (C53_exact_partial p ci _ SN) in B. rewrite (C53_exact_partial p ci _ SN) in B'. cbn [flat_map] in B, B'. rewrite B in B'. injection B' as ->. reflexivity.
Qed.
Print Assumptions C53_files_ignore_buffers_partial.

Theorem C53_recover_refuted : ~ C53_statement.
Proof.
  intros (recover & H).
  assert (F : exists index data, forall b, b = ex_buf \/ b = bb_new false ->
     exists w1 sg w2 sg2 rs, segment_new ex_world ex_base ex_info = (w1, Ok sg) /\ seg_run Debug w1 sg [SColumn ex_b [CWrite b; CClose]; SClose ex_it] = Ret (w2, sg2, rs) /\ all_ok rs
       /\ directory_after (fun _ => None) (wd_log w2) (index_path ex_base (si_segment_id ex_info)) = Some index
       /\ directory_after (fun _ => None) (wd_log w2) (data_path ex_base (si_segment_id ex_info)) = Some data).
  { destruct (file_after (index_path ex_base (si_segment_id ex_info)) (run_from Debug ex_world ex_base ex_info [SColumn ex_b [CWrite ex_buf; CClose]; SClose ex_it])) as [index|] eqn:EI; [|vm_compute in EI; discriminate].
    destruct (file_after (data_path ex_base (si_segment_id ex_info)) (run_from Debug ex_world ex_base ex_info [SColumn ex_b [CWrite ex_buf; CClose]; SClose ex_it])) as [data|] eqn:ED; [|vm_compute in ED; discriminate].
    exists index, data. intros b C.
    destruct (ex_run [SColumn ex_b [CWrite b; CClose]; SClose ex_it] [(43243, [115; 110; 97; 112; 112; 121])]%N) as (w1 & sg & w2 & sg2 & rs & N & R & A).
    { apply Forall_cons; [right; reflexivity|]. repeat constructor. }
    { reflexivity. }
    exists w1, sg, w2, sg2, rs. split; [exact N|]. split; [exact R|]. split; [exact A|].
    assert (FA : forall f, directory_after (fun _ => None) (wd_log w2) f = file_after f (run_from Debug ex_world ex_base ex_info [SColumn ex_b [CWrite b; CClose]; SClose ex_it]))
      by (intros f; unfold run_from; rewrite N, R; reflexivity).
    rewrite !FA, <- EI, <- ED. clear -C. split; destruct C as [-> | ->]; vm_compute; reflexivity. }
  destruct F as (index & data & F).
  destruct (F _ (or_introl eq_refl)) as (w1 & sg & w2 & sg2 & rs & N & R & A & DI & DD).
  destruct (F _ (or_intror eq_refl)) as (w1' & sg' & w2' & sg2' & rs' & N' & R' & A' & DI' & DD').
  assert (M : 0 < wd_max ex_world) by (cbn; lia). assert (ID : is_id (si_segment_id ex_info)) by (split; [reflexivity|repeat constructor]).
  pose proof (H _ _ _ _ _ _ _ ex_b _ _ _ _ _ _ _ M ID N eq_refl (ex_orders [] ltac:(constructor)) R A DI DD) as L1.
  pose proof (H _ _ _ _ _ _ _ ex_b _ _ _ _ _ _ _ M ID N' eq_refl (ex_orders [] ltac:(constructor)) R' A' DI' DD') as L2.
  rewrite L1 in L2. clear -L2. vm_compute in L2. discriminate.
Qed.
Print Assumptions C53_recover_refuted.

(** * C59: closing a column again changes nothing *)

Definition C59_statement : Prop := forall p ci ops blocks,
  column_blocks p ci (ops ++ [CClose]) = Ret blocks -> column_blocks p ci (ops ++ [CClose; CClose]) = Ret blocks.

(** The rows held back are written once more by every close. *)
Theorem C59_twice_refuted : ~ C59_statement.
Proof.
  intros H. destruct (column_blocks Debug ex_a ([CWrite ex_buf] ++ [CClose])) as [bl|k|] eqn:E; [|vm_compute in E; discriminate..].
  specialize (H Debug ex_a [CWrite ex_buf] bl E). vm_compute in E. injection E as <-. vm_compute in H. discriminate.
Qed.
Print Assumptions C59_twice_refuted.

Lemma like_put_from fuel : forall a b src items pos n a' k, rle_like a b -> rle_put_from_loop fuel a src items pos n = Ret (a', k) ->
  exists b', rle_put_from_loop fuel b src items pos n = Ret (b', k) /\ rle_like a' b'.
Proof.
  induction fuel as [|fuel IH]; intros a b src items pos n a' k L H; cbn [rle_put_from_loop] in H |- *; [discriminate|].
  destruct (items <? n); [|injection H as <- <-; eauto].
  destruct (bm_is_set src pos) as [bit|x|]; cbn [bind] in H |- *; try discriminate.
  pose proof (like_put a b bit L) as LP. destruct (rle_put a bit) as [a1|x|]; cbn [bind] in H; try discriminate.
  destruct (rle_put b bit) as [b1|x|]; cbn [like_outcome] in LP; try contradiction. cbn [bind]. eapply IH; eassumption.
Qed.

(** A block does not depend on what was encoded before. *)
Lemma encode_fresh p buf c bp a b enc rle nl : encode_binary_buffer p buf c bp a = Ret (enc, rle, nl) ->
  exists rle', encode_binary_buffer p buf c bp b = Ret (enc, rle', nl).
Proof.
  unfold encode_binary_buffer. intros H. destruct (put_varint [] (bc_size c)) as [h|x|]; cbn [bind] in H |- *; try discriminate.
  destruct (slice _ _ _) as [data|x|]; cbn [bind] in H |- *; try discriminate.
  destruct (item_lens _ _ _ _) as [ds|x|]; cbn [bind] in H |- *; try discriminate.
  destruct (off_encode _ _ _) as [o|x|]; cbn [bind] in H |- *; try discriminate.
  destruct (bb_validity buf) as [v|]; [|injection H as <- <- <-; eauto].
  unfold rle_put_from in *. destruct (rle_put_from_loop _ (rle_clear a) v 0 bp _) as [[a1 k]|x|] eqn:PA; cbn [bind fst snd] in H; try discriminate.
  destruct (like_put_from _ (rle_clear a) (rle_clear b) _ _ _ _ _ _ ltac:(right; repeat split) PA) as (b1 & PB & L). rewrite PB. cbn [bind fst snd].
  pose proof (like_flush _ _ L) as LF. destruct (rle_flush a1) as [a2|x|]; cbn [bind] in H; try discriminate.
  destruct (rle_flush b1) as [b2|x|]; cbn in LF; try discriminate. injection LF as LF. cbn [bind]. injection H as <- <- <-. rewrite LF. eauto.
Qed.

Lemma encoder_run_app p a : forall e acc bl, encoder_run p e a acc = Ret bl ->
  exists e', layout_of_enc e' = layout_of_enc e /\ forall b, encoder_run p e (a ++ b) acc = encoder_run p e' b bl.
Proof.
  induction a as [|o a IH]; intros e acc bl H; [injection H as <-; exists e; split; reflexivity|].
  destruct o as [b|]; cbn [encoder_run app] in H |- *.
  - destruct (bin_encode collect p e b acc) as [[[e1 s1] r]|x|] eqn:E; cbn [bind] in H |- *; try discriminate.
    destruct (bin_encode_feed _ _ _ _ _ _ _ _ E) as (L & _). destruct (IH _ _ _ H) as (e' & L' & G). exists e'. split; [congruence|exact G].
  - destruct (bin_flush collect p e acc) as [[[e1 s1] r]|x|] eqn:E; cbn [bind] in H |- *; try discriminate.
    destruct (bin_flush_feed _ _ _ _ _ _ _ E) as (L & _). destruct (IH _ _ _ H) as (e' & L' & G). exists e'. split; [congruence|exact G].
Qed.

(** What the first close writes (at most one block), the second writes again,
    unless the row count exceeds 32 bits. *)
Theorem C59_exact_partial : forall p ci ops before blocks,
  column_blocks p ci ops = Ret before -> column_blocks p ci (ops ++ [CClose]) = Ret blocks ->
  exists last, blocks = before ++ last /\ length last <= 1
    /\ (column_blocks p ci (ops ++ [CClose; CClose]) = Panic PExpect
        \/ exists again, column_blocks p ci (ops ++ [CClose; CClose]) = Ret (before ++ last ++ again) /\ map snd again = map snd last).
Proof.
  intros p ci ops before blocks H0 H1. unfold column_blocks in *.
  destruct (new_binary_encoder (ci_encoding ci) 128 (ci_nullable ci)) as [e|].
  2:{ injection H0 as <-. injection H1 as <-. exists []. split; [reflexivity|]. split; [cbn; lia|]. right. exists []. split; reflexivity. }
  destruct (encoder_run_app p ops e [] before H0) as (e' & _ & G). rewrite G in H1. rewrite G. clear G H0. cbn [encoder_run] in H1 |- *.
  destruct e' as [e'|]; cbn [bin_flush] in H1 |- *.
  2:{ cbn [bind] in H1 |- *. injection H1 as <-. exists []. rewrite app_nil_r. split; [reflexivity|]. split; [cbn; lia|]. right. exists []. rewrite !app_nil_r. split; reflexivity. }
  assert (FL : forall e acc e1 acc1 r, be_flush collect p e acc = Ret (e1, acc1, r) ->
            (acc1 = acc /\ e1 = e)
            \/ exists rid enc, acc1 = acc ++ [(rid, enc)] /\ forall acc2, be_flush collect p e1 acc2 = Panic PExpect
                             \/ exists rid2 e2 r2, be_flush collect p e1 acc2 = Ret (e2, acc2 ++ [(rid2, enc)], r2)).
  { clear. intros e' acc e1 acc1 r H1. unfold be_flush in *. destruct (0 <? bb_len (be_remaining e')) eqn:EL; [|injection H1 as <- <- _; auto]. right.
    unfold be_write_remaining in *. destruct (idx _ _) as [eo|x|] eqn:EI; cbn [bind] in H1; try discriminate. unfold be_write in *.
    destruct (encode_binary_buffer p (be_remaining e') _ 0 (be_bitmap e')) as [[[enc rle] [n lv]]|x|] eqn:EE; cbn [bind] in H1; try discriminate.
    destruct (be_add_rows (be_rows e') n) as [rows|x|] eqn:ER; cbn [bind] in H1; try discriminate.
    destruct (sub32 p rows 1) as [rid|x|] eqn:ES; cbn [bind] in H1; try discriminate.
    unfold collect in *. cbn [fst snd] in H1. injection H1 as <- <- _. exists rid, enc. split; [reflexivity|]. intros acc2. cbn [be_remaining be_bitmap be_rows].
    rewrite EL, EI. cbn [bind]. destruct (encode_fresh _ _ _ _ _ rle _ _ _ EE) as (rle' & EE'). rewrite EE'. cbn [bind].
    unfold be_add_rows in *. destruct (N.leb_spec (N.of_nat n) u32_max); [|discriminate]. destruct (N.leb_spec (be_rows e' + N.of_nat n) u32_max); [|discriminate]. injection ER as <-.
    destruct (N.leb_spec (be_rows e' + N.of_nat n + N.of_nat n) u32_max); [|left; reflexivity]. cbn [bind]. right.
    assert (exists rid2, sub32 p (be_rows e' + N.of_nat n + N.of_nat n) 1 = Ret rid2) as (rid2 & ->).
    { unfold sub32, usub in *. destruct (N.leb_spec 1 (be_rows e' + N.of_nat n + N.of_nat n)); [eauto|]. destruct (N.leb_spec 1 (be_rows e' + N.of_nat n)); [lia|]. destruct p; [discriminate|eauto]. }
    cbn [bind fst snd]. eauto. }
  destruct (be_flush collect p e' before) as [[[e1 acc1] r]|x|] eqn:F1; cbn [bind] in H1 |- *; try discriminate. injection H1 as ->.
  destruct (FL _ _ _ _ _ F1) as [(-> & ->)|(rid & enc & -> & G)].
  - exists []. rewrite app_nil_r. split; [reflexivity|]. split; [cbn; lia|]. right. exists []. cbn [bin_flush]. rewrite F1. cbn [bind]. rewrite !app_nil_r. split; reflexivity.
  - exists [(rid, enc)]. split; [reflexivity|]. split; [cbn; lia|]. cbn [bin_flush]. destruct (G (before ++ [(rid, enc)])) as [->|(rid2 & e2 & r2 & ->)]; cbn [bind]; [left; reflexivity|].
    right. exists [(rid2, enc)]. rewrite <- app_assoc. split; reflexivity.
Qed.
Print Assumptions C59_exact_partial.

(** * C61: the metadata tells how many values and nulls a column has *)

Definition C61_statement : Prop := forall d p w base info w1 sg ci b it w2 sg2 rs file,
  0 < wd_max w -> is_id (si_segment_id info) -> segment_new w base info = (w1, Ok sg) ->
  orders_ok [SClose it] -> seg_run p w1 sg [SColumn ci [CWrite b; CClose]; SClose it] = Ret (w2, sg2, rs) -> all_ok rs ->
  directory_after d (wd_log w2) (index_path base (si_segment_id info)) = Some file ->
  exists s lays c, read_index_file file = Some (mkmeta (Some s) lays) /\ In (ci_name ci, c) (sm_columns_meta s)
    /\ cm_num_values c = N.of_nat (bb_len b).

(** All statistics of all columns are 0, as are the sizes of the segment. *)
Theorem C61_always_zero_partial : forall d p w base info w1 sg ops it w2 sg2 rs file,
  0 < wd_max w -> is_id (si_segment_id info) -> segment_new w base info = (w1, Ok sg) ->
  orders_ok (ops ++ [SClose it]) -> seg_run p w1 sg (ops ++ [SClose it]) = Ret (w2, sg2, rs) -> all_ok rs ->
  directory_after d (wd_log w2) (index_path base (si_segment_id info)) = Some file ->
  (N.of_nat (length file) < 18446744073709551616)%N ->
  exists s lays, read_index_file file = Some (mkmeta (Some s) lays)
    /\ sm_compressed_size s = 0%N /\ sm_uncompressed_size s = 0%N
    /\ forall name c, In (name, c) (sm_columns_meta s) ->
         cm_num_values c = 0%N /\ cm_num_nulls c = 0%N /\ cm_cardinality c = 0%N /\ cm_compressed_size c = 0%N
         /\ cm_uncompressed_size c = 0%N /\ cm_stats c = None.
Proof.
  intros d p w base info w1 sg ops it w2 sg2 rs file M ID N O H A DF SZ.
  destruct (closed_read d p w base info w1 sg ops it w2 sg2 rs file M ID N O H A DF SZ) as (cols & lays & R & (ND & D) & _).
  eexists _, lays. split; [exact R|]. split; [reflexivity|]. split; [reflexivity|]. cbn [sm_columns_meta].
  intros name c I. apply (assoc_in _ _ _ ND) in I. rewrite D in I.
  destruct (last_named name (closed_columns ops)) as [ci|]; [|discriminate]. injection I as <-. repeat split.
Qed.
Print Assumptions C61_always_zero_partial.

Theorem C61_num_values_refuted : ~ C61_statement.
Proof.
  intros H. destruct (segment_blocks Debug [SColumn ex_a [CWrite ex_buf; CClose]; SClose ex_it]) as [bl|k|] eqn:B; [|vm_compute in B; discriminate..].
  destruct (ex_run [SColumn ex_a [CWrite ex_buf; CClose]; SClose ex_it] bl) as (w1 & sg & w2 & sg2 & rs & N & R & A); [repeat constructor|exact B|].
  assert (M : 0 < wd_max ex_world) by (cbn; lia). assert (ID : is_id (si_segment_id ex_info)) by (split; [reflexivity|repeat constructor]).
  assert (FA : directory_after (fun _ => None) (wd_log w2) (index_path ex_base (si_segment_id ex_info))
               = file_after (index_path ex_base (si_segment_id ex_info)) (run_from Debug ex_world ex_base ex_info [SColumn ex_a [CWrite ex_buf; CClose]; SClose ex_it]))
    by (unfold run_from; rewrite N, R; reflexivity).
  destruct (file_after _ _) as [file|] eqn:E; [|vm_compute in E; discriminate].
  assert (SZ : length file = 76).
  { clear -E. apply (f_equal (fun r => match r with Some b => length b | None => 0 end)) in E. cbn beta iota in E. rewrite <- E. vm_compute. reflexivity. }
  destruct (H (fun _ => None) Debug ex_world ex_base ex_info w1 sg ex_a ex_buf ex_it w2 sg2 rs file M ID N (ex_orders [] ltac:(constructor)) R A FA) as (s & lays & c & RD & IN & EQ).
  destruct (C61_always_zero_partial (fun _ => None) Debug ex_world ex_base ex_info w1 sg [SColumn ex_a [CWrite ex_buf; CClose]] ex_it w2 sg2 rs file M ID N
              (ex_orders [SColumn ex_a [CWrite ex_buf; CClose]] ltac:(repeat constructor)) R A FA ltac:(rewrite SZ; reflexivity)) as (s' & lays' & RD' & _ & _ & Z).
  rewrite RD in RD'. injection RD' as <- <-. destruct (Z _ _ IN) as (Z1 & _). rewrite Z1 in EQ. clear -EQ. vm_compute in EQ. discriminate.
Qed.
Print Assumptions C61_num_values_refuted.

(** A column of [bb_len ex_buf] rows, whose metadata says 0 values. *)
Example C61_witness :
  let ops := [SColumn ex_a [CWrite ex_buf; CClose]; SClose ex_it] in
  orders_ok ops /\ 0 < bb_len ex_buf
  /\ match run_from Debug ex_world ex_base ex_info ops with
     | Some (w, _, rs) =>
         rs = [Ok tt; Ok tt; Ok tt; Ok tt]
         /\ match directory_after (fun _ => None) (wd_log w) (index_path ex_base (si_segment_id ex_info)) with
            | Some file =>
                match read_index_file file with
                | Some (mkmeta (Some s) _) => map (fun c => (fst c, cm_num_values (snd c), cm_uncompressed_size (snd c))) (sm_columns_meta s) = [([97], 0, 0)]%N
                | _ => False end
            | None => False end
     | None => False end.
Proof. split; [apply (ex_orders [SColumn ex_a [CWrite ex_buf; CClose]]); repeat constructor|]. vm_compute. split; [repeat constructor|]. split; reflexivity. Qed.
