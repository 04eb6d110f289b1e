(** C68, C69: index files that were not written completely. *)
From Verif Require Import Base BaseProofs Buffers Sink PrimEnc BinEnc Io SpecIo IoProofs IoReadProofs PropsIo Metadata Proto SpecProto ProtoProofs ReadBlock
  BlockProofs Names PropsNames Segment SpecSegment SegmentProofs SegmentRunProofs PropsSegment PropsSegmentEx PropsSegmentRef PropsCrash.
From Coq Require Import Permutation.
Open Scope nat_scope.

(** * C68: a cut off index file is noticed *)

Lemma le_value_app a : forall b, le_value (a ++ b) = (le_value a + 256 ^ N.of_nat (length a) * le_value b)%N.
Proof.
  induction a as [|x a IH]; intros b; [cbn [app le_value length]; change (256 ^ N.of_nat 0)%N with 1%N; lia|].
  cbn [app le_value length]. rewrite IH, Nat2N.inj_succ, N.pow_succ_r'. lia.
Qed.

Lemma le_value_zero l : le_value l = 0%N -> l = repeat 0%N (length l).
Proof. induction l as [|x l IH]; intros H; [reflexivity|]. cbn [le_value length repeat] in *. f_equal; [lia|apply IH; lia]. Qed.

Lemma too_far bytes : length bytes < 20 \/ (N.of_nat (length bytes) <= le_value (skipn (length bytes - 8) bytes) + 7)%N -> read_index_file bytes = None.
Proof.
  intros H. unfold read_index_file. destruct (20 <=? length bytes) eqn:L; [|reflexivity]. apply Nat.leb_le in L.
  replace (N.to_nat (le_value (skipn (length bytes - 8) bytes)) <=? length bytes - 8) with false; [rewrite !Bool.andb_false_r; reflexivity|].
  symmetry. apply Nat.leb_gt. lia.
Qed.

(** Metadata right after the signature, without four zero bytes in a row: what is
    left of the file has to be longer than the number that its last bytes are
    taken for, and [missing] bytes are enough to make that number large. *)
Lemma cut_rejected meta k :
  let file := index_file_signature ++ meta ++ le_bytes 8 12 in
  (forall a b, meta <> a ++ [0; 0; 0; 0]%N ++ b) -> (N.of_nat (length file) < 4294967296)%N ->
  k < length file -> (N.of_nat k < 12 * 256 ^ N.of_nat (length file - k) + 8)%N -> read_index_file (firstn k file) = None.
Proof.
  intros file NZ SZ K KM. assert (LF : length file = 20 + length meta) by (unfold file; rewrite !app_length, le_length; cbn [length index_file_signature]; lia).
  assert (LK : length (firstn k file) = k) by (rewrite firstn_length; lia). apply too_far. rewrite LK.
  destruct (Nat.lt_ge_cases k 20) as [S20|S20]; [left; exact S20|right].
  assert (EW : skipn (k - 8) (firstn k file) = firstn 8 (skipn (k - 8 - 12) (meta ++ le_bytes 8 12))).
  { rewrite skipn_firstn_comm. replace (k - (k - 8)) with 8 by lia. f_equal. unfold file. rewrite skipn_app.
    rewrite skipn_all2 by (cbn [length index_file_signature]; lia). reflexivity. }
  rewrite EW. clear EW. rewrite skipn_app. destruct (Nat.le_gt_cases k (12 + length meta)) as [IN|OUT].
  - (* the last eight bytes are metadata *)
    replace (k - 8 - 12 - length meta) with 0 by lia. cbn [skipn]. rewrite firstn_app, skipn_length.
    replace (8 - (length meta - (k - 8 - 12))) with 0 by lia. rewrite firstn_O, app_nil_r.
    set (win := firstn 8 (skipn (k - 8 - 12) meta)). assert (LW : length win = 8) by (unfold win; rewrite firstn_length, skipn_length; lia).
    assert (EM : meta = firstn (k - 20) meta ++ win ++ skipn (k - 12) meta).
    { unfold win. replace (k - 8 - 12) with (k - 20) by lia. replace (k - 12) with (k - 20 + 8) by lia. rewrite IoReadProofs.skipn_plus. rewrite firstn_skipn, firstn_skipn. reflexivity. }
    destruct win as [|b0 [|b1 [|b2 [|b3 high]]]]; try discriminate LW.
    change (b0 :: b1 :: b2 :: b3 :: high) with ([b0; b1; b2; b3] ++ high) in *. rewrite le_value_app.
    change (256 ^ N.of_nat (length [b0; b1; b2; b3]))%N with 4294967296%N.
    assert (le_value high <> 0)%N; [|nia]. intros Z. apply le_value_zero in Z. cbn [length app] in LW. replace (length high) with 4 in Z by lia.
    subst high. cbn [repeat] in EM. eapply (NZ (firstn (k - 20) meta ++ [b0; b1; b2; b3]) (skipn (k - 12) meta)). rewrite <- app_assoc. exact EM.
  - (* they reach into the footer *)
    replace (k - 8 - 12 - length meta) with 0 by lia. cbn [skipn]. set (low := skipn (k - 8 - 12) meta).
    assert (LL : 1 <= length low <= 7) by (unfold low; rewrite skipn_length; lia).
    rewrite firstn_app. rewrite firstn_all2 by lia. rewrite le_value_app.
    assert (FT : (12 <= le_value (firstn (8 - length low) (le_bytes 8 12)))%N).
    { change (le_bytes 8 12) with [12; 0; 0; 0; 0; 0; 0; 0]%N. destruct (8 - length low) as [|n] eqn:E; [lia|]. cbn [firstn le_value]. lia. }
    replace (length file - k) with (length low) in KM by (unfold low; rewrite skipn_length; lia).
    nia.
Qed.

(** So it is for segments that were closed once, as long as their index has no
    four zero bytes in a row and less than four gigabytes. It takes one missing
    byte in files of up to 3080 bytes, two up to 786441, three up to 201326602,
    and four always. *)
Theorem C68_cut_partial : forall d p w base info w1 sg ops it w2 sg2 rs file k,
  0 < wd_max w -> is_id (si_segment_id info) -> segment_new w base info = (w1, Ok sg) ->
  orders_ok (ops ++ [SClose it]) -> seg_run p w1 sg (ops ++ [SClose it]) = Ret (w2, sg2, rs) -> all_ok rs ->
  (forall it', ~ In (SClose it') ops) ->
  directory_after d (wd_log w2) (index_path base (si_segment_id info)) = Some file ->
  (N.of_nat (length file) < 2 ^ 32)%N -> (forall a b, firstn (length file - 20) (skipn 12 file) <> a ++ [0; 0; 0; 0]%N ++ b) ->
  k < length file -> (N.of_nat k < 12 * 256 ^ N.of_nat (length file - k) + 8)%N -> read_index_file (firstn k file) = None.
Proof.
  intros d p w base info w1 sg ops it w2 sg2 rs file k M ID N O H A NC DF SZ NZ K KM.
  destruct (closed_files d _ _ _ _ _ _ _ _ _ _ _ M ID N O H A) as (blocks & middle & m & _ & _ & MK & _ & _ & _ & DI).
  rewrite DI in DF. apply some_inv in DF.
  assert (middle = []) as ->.
  { apply (app_inv_head index_file_signature). rewrite app_nil_r, <- MK. unfold outline.
    assert (ML : exists cis, flat_map marks_in ops = map inl cis).
    { clear -NC. induction ops as [|[ci cops|it] ops IH]; [exists []; reflexivity| |exfalso; apply (NC it); left; reflexivity].
      destruct IH as [cis E]; [intros it' I; apply (NC it'); right; exact I|]. exists (closed_in (SColumn ci cops) ++ cis).
      cbn [flat_map marks_in]. rewrite E, map_app. reflexivity. }
    destruct ML as [cis ->]. rewrite marks_insert. reflexivity. }
  cbn [app length] in DF. change (N.of_nat (12 + 0)) with 12%N in DF. subst file.
  change (2 ^ 32)%N with 4294967296%N in SZ. apply cut_rejected; [|exact SZ|exact K|exact KM]. intros a b E. apply (NZ a b). rewrite <- E.
  rewrite skipn_app, skipn_all2 by (cbn; lia). cbn [app length index_file_signature Nat.sub skipn].
  rewrite !app_length, le_length. cbn [length index_file_signature].
  rewrite Nat.add_sub, firstn_app, Nat.sub_diag, firstn_all. cbn [firstn]. apply app_nil_r.
Qed.
Print Assumptions C68_cut_partial.

(** Small files, cut anywhere. *)
Theorem C68_small_partial : forall d p w base info w1 sg ops it w2 sg2 rs file k,
  0 < wd_max w -> is_id (si_segment_id info) -> segment_new w base info = (w1, Ok sg) ->
  orders_ok (ops ++ [SClose it]) -> seg_run p w1 sg (ops ++ [SClose it]) = Ret (w2, sg2, rs) -> all_ok rs ->
  (forall it', ~ In (SClose it') ops) ->
  directory_after d (wd_log w2) (index_path base (si_segment_id info)) = Some file ->
  length file < 3080 -> (forall a b, firstn (length file - 20) (skipn 12 file) <> a ++ [0; 0; 0; 0]%N ++ b) ->
  k < length file -> read_index_file (firstn k file) = None.
Proof.
  intros d p w base info w1 sg ops it w2 sg2 rs file k M ID N O H A NC DF SZ NZ K.
  eapply C68_cut_partial; try eassumption; [change (2 ^ 32)%N with 4294967296%N; lia|].
  assert (P : (256 <= 256 ^ N.of_nat (length file - k))%N) by (change 256%N with (256 ^ 1)%N at 1; apply N.pow_le_mono_r; lia). lia.
Qed.
Print Assumptions C68_small_partial.

(** Files that lack at least four bytes. *)
Theorem C68_four_bytes_partial : forall d p w base info w1 sg ops it w2 sg2 rs file k,
  0 < wd_max w -> is_id (si_segment_id info) -> segment_new w base info = (w1, Ok sg) ->
  orders_ok (ops ++ [SClose it]) -> seg_run p w1 sg (ops ++ [SClose it]) = Ret (w2, sg2, rs) -> all_ok rs ->
  (forall it', ~ In (SClose it') ops) ->
  directory_after d (wd_log w2) (index_path base (si_segment_id info)) = Some file ->
  (N.of_nat (length file) < 2 ^ 32)%N -> (forall a b, firstn (length file - 20) (skipn 12 file) <> a ++ [0; 0; 0; 0]%N ++ b) ->
  k + 4 <= length file -> read_index_file (firstn k file) = None.
Proof.
  intros d p w base info w1 sg ops it w2 sg2 rs file k M ID N O H A NC DF SZ NZ K.
  eapply C68_cut_partial; try eassumption; [lia|].
  assert (P : (2 ^ 32 <= 256 ^ N.of_nat (length file - k))%N) by (change (2 ^ 32)%N with (256 ^ 4)%N; apply N.pow_le_mono_r; lia).
  change (2 ^ 32)%N with 4294967296%N in *. lia.
Qed.
Print Assumptions C68_four_bytes_partial.

(** In general it is not. *)
Definition C68_statement : Prop := forall d p w base info w1 sg ops it w2 sg2 rs file k,
  0 < wd_max w -> is_id (si_segment_id info) -> segment_new w base info = (w1, Ok sg) ->
  orders_ok (ops ++ [SClose it]) -> seg_run p w1 sg (ops ++ [SClose it]) = Ret (w2, sg2, rs) -> all_ok rs ->
  (forall it', ~ In (SClose it') ops) ->
  directory_after d (wd_log w2) (index_path base (si_segment_id info)) = Some file ->
  k < length file -> read_index_file (firstn k file) = None.

(** A table whose name ends in a number that, at the end of a file, is taken for
    the position of the metadata. *)
Definition torn_info : segment_info :=
  mksinfo [1; 2; 3; 4; 5; 6; 7; 8; 9; 10; 11; 12; 13; 14; 15; 16]%N [100]%N [116; 38; 0; 0; 0; 0; 0; 0; 0]%N 3 1000.

Theorem C68_refuted : ~ C68_statement.
Proof.
  intros H.
  destruct (segment_new ex_world ex_base torn_info) as [w1 [sg|]] eqn:N; [|vm_compute in N; discriminate N].
  destruct (seg_run Debug w1 sg ([] ++ [SClose ex_it])) as [[[w2 sg2] rs]|k|] eqn:R.
  - assert (F : match run_from Debug ex_world ex_base torn_info [SClose ex_it] with
                | Some (w, _, rs) => match directory_after (fun _ => None) (wd_log w) (index_path ex_base (si_segment_id torn_info)) with
                                     | Some file => (46 <? length file) = true /\ read_index_file (firstn 46 file) <> None /\ all_ok rs
                                     | None => False end
                | None => False end).
    { vm_compute. repeat split; try discriminate; repeat constructor. }
    unfold run_from in F. rewrite N in F. cbn [app] in R. rewrite R in F.
    destruct (directory_after (fun _ => None) (wd_log w2) (index_path ex_base (si_segment_id torn_info))) as [file|] eqn:D; [|contradiction].
    destruct F as (L & RD & A). apply Nat.ltb_lt in L. apply RD.
    apply (H (fun _ => None) Debug ex_world ex_base torn_info w1 sg [] ex_it w2 sg2 rs file 46); try assumption.
    + vm_compute. lia.
    + vm_compute. repeat split; repeat constructor.
    + exact (ex_orders [] ltac:(repeat constructor)).
    + intros it' [].
  - vm_compute in N. injection N as <- <-. vm_compute in R. discriminate R.
  - vm_compute in N. injection N as <- <-. vm_compute in R. discriminate R.
Qed.
Print Assumptions C68_refuted.

(** Nor is a byte that never reached the disk noticed: there is no checksum. *)
Definition C68_damage_statement : Prop := forall d p w base info w1 sg ops it w2 sg2 rs d' file bytes m,
  0 < wd_max w -> is_id (si_segment_id info) -> segment_new w base info = (w1, Ok sg) ->
  orders_ok (ops ++ [SClose it]) -> seg_run p w1 sg (ops ++ [SClose it]) = Ret (w2, sg2, rs) -> all_ok rs ->
  let fi := index_path base (si_segment_id info) in
  directory_after d (wd_log w2) fi = Some file -> after_crash true d (wd_log w2) d' ->
  d' fi = Some bytes -> read_index_file bytes = Some m -> read_index_file file = Some m.

Theorem C68_damage_refuted : ~ C68_damage_statement.
Proof.
  intros H. set (ops := [SColumn ex_a [CWrite ex_buf; CClose]]).
  destruct (segment_blocks Debug (ops ++ [SClose ex_it])) as [bl|k|] eqn:B; [|vm_compute in B; discriminate B..].
  destruct (ex_run (ops ++ [SClose ex_it]) bl) as (w1 & sg & w2 & sg2 & rs & N & R & A); [repeat constructor|exact B|].
  set (fi := index_path ex_base (si_segment_id ex_info)). set (d := (fun _ => None) : directory).
  assert (E : run_from Debug ex_world ex_base ex_info (ops ++ [SClose ex_it]) = Some (w2, sg2, rs)) by (unfold run_from; rewrite N, R; reflexivity).
  assert (EW := f_equal (fun r => match r with Some (w, _, _) => w | None => ex_world end) E). cbn beta iota in EW.
  (* the first byte of the identifier of the segment *)
  set (damage := fun file : list BinNums.N => firstn 16 file ++ [0%N] ++ skipn 17 file).
  assert (F : match directory_after d (wd_log w2) fi with
              | Some file => cf_synced (crash_state true d fi (wd_log w2)) = 0 /\ 17 <? length file = true
                             /\ match read_index_file (damage file), read_index_file file with
                                | Some m, Some m' => m <> m'
                                | _, _ => False
                                end
              | None => False
              end) by (rewrite <- EW; vm_compute; repeat split; discriminate).
  destruct (directory_after d (wd_log w2) fi) as [file|] eqn:DF; [|contradiction]. destruct F as (S0 & L & F). apply Nat.ltb_lt in L.
  destruct (read_index_file (damage file)) as [m|] eqn:RD; [|contradiction].
  set (d' := fun f => if path_dec f fi then Some (damage file) else directory_after d (wd_log w2) f).
  assert (AC : after_crash true d (wd_log w2) d').
  { intros f. change (crash_leaves (crash_state true d f (wd_log w2)) (d' f)). unfold d'. destruct (path_dec f fi) as [-> |]; [|apply crash_leaves_cur].
    right. rewrite crash_cur, DF, S0. unfold damage. split; [rewrite !app_length, firstn_length, skipn_length; cbn [length]; lia|].
    intros i I. destruct (Nat.lt_trichotomy i 16) as [J|[->|J]].
    - left. rewrite app_nth1 by (rewrite firstn_length; lia). rewrite <- (firstn_skipn 16 file) at 2. rewrite app_nth1 by (rewrite firstn_length; lia). reflexivity.
    - right. split; [lia|]. rewrite app_nth2 by (rewrite firstn_length; lia). rewrite firstn_length. replace (16 - min 16 (length file)) with 0 by lia. reflexivity.
    - left. rewrite app_nth2 by (rewrite firstn_length; lia). rewrite firstn_length, app_nth2 by (cbn [length]; lia). cbn [length].
      rewrite <- (firstn_skipn 17 file) at 3. rewrite (app_nth2 (firstn 17 file)) by (rewrite firstn_length; lia). rewrite firstn_length. f_equal. lia. }
  assert (X := H d Debug ex_world ex_base ex_info w1 sg ops ex_it w2 sg2 rs d' file (damage file) m ltac:(cbn; lia) ltac:(split; [reflexivity|repeat constructor]) N (ex_orders ops ltac:(repeat constructor)) R A DF AC).
  fold fi in X. unfold d' in X. destruct (path_dec fi fi); [|congruence]. rewrite (X eq_refl RD) in F. apply F. reflexivity.
Qed.
Print Assumptions C68_damage_refuted.

(** * C69: a segment that was never closed is not taken for a complete one *)

(** A file that is never longer than [n] is not after a crash, either. *)
Lemma crash_bound sn d f n log : d f = None ->
  (forall l1 l2 c, log = l1 ++ l2 -> directory_after d l1 f = Some c -> length c <= n) ->
  forall l, crash_leaves (crash_state sn d f log) (Some l) -> length l <= n.
Proof.
  intros D0. induction log as [|e log IH] using rev_ind; intros HB.
  - intros l. unfold crash_state, crash_leaves. cbn [fold_left]. unfold crash_init. cbn [cf_older cf_cur]. rewrite D0. intros [[]|[]].
  - assert (IH' : forall l, crash_leaves (crash_state sn d f log) (Some l) -> length l <= n).
    { apply IH. intros l1 l2 c E. apply (HB l1 (l2 ++ [e]) c). rewrite E, <- app_assoc. reflexivity. }
    assert (CUR : forall l k, match cf_cur (crash_state sn d f (log ++ [e])) with Some cur => survives k cur l | None => False end -> length l <= n).
    { intros l k. rewrite crash_cur. destruct (directory_after d (log ++ [e]) f) as [c|] eqn:C; [|intros []]. intros [S1 _].
      specialize (HB (log ++ [e]) [] c ltac:(rewrite app_nil_r; reflexivity) C). lia. }
    intros l [O|C]; [|exact (CUR l _ C)]. clear CUR. rewrite crash_state_app in O. cbn [fold_left] in O.
    destruct e as [g|g b|g]; cbn [crash_step] in O; destruct (path_dec f g); cbn [cf_older] in O; try (apply IH'; left; exact O).
    + apply IH'. exact O.
    + destruct O as [_ O]. discriminate O.
Qed.

Lemma directory_grows d f : forall log c, Forall (fun e => e <> FCreate f) log -> d f = Some c -> exists more, directory_after d log f = Some (c ++ more).
Proof.
  intros log. revert d. induction log as [|e log IH]; intros d c F H; [exists []; rewrite app_nil_r; exact H|].
  apply Forall_cons_iff in F. destruct F as [NC F]. change (directory_after d (e :: log)) with (directory_after (apply_effect d e) log).
  destruct e as [g|g b|g].
  - apply IH; [exact F|]. unfold apply_effect. destruct (path_dec f g) as [<-|]; [congruence|exact H].
  - destruct (path_dec f g) as [<-|NE].
    + destruct (IH (apply_effect d (FAppend f b)) (c ++ b) F) as [more E]; [unfold apply_effect; destruct (path_dec f f); [rewrite H; reflexivity|congruence]|].
      exists (b ++ more). rewrite app_assoc. exact E.
    + apply IH; [exact F|]. unfold apply_effect. destruct (path_dec f g); [contradiction|exact H].
  - apply IH; assumption.
Qed.

(** Created at first, and only then. *)
Definition created_once (f : path) (log : list fs_event) : Prop := log = [] \/ exists tl, log = FCreate f :: tl /\ Forall (fun e => e <> FCreate f) tl.

Lemma crash_small sn d f n log rest d' bytes : d f = None -> created_once f (log ++ rest) ->
  (forall c, directory_after d (log ++ rest) f = Some c -> length c <= n) ->
  after_crash sn d log d' -> d' f = Some bytes -> length bytes <= n.
Proof.
  intros D0 CO HB AC DB. specialize (AC f). change (crash_leaves (crash_state sn d f log) (d' f)) in AC. rewrite DB in AC.
  refine (crash_bound sn d f n log D0 _ bytes AC). intros l1 l2 c -> H. destruct CO as [E|(tl & E & NC)].
  - destruct l1 as [|e l1]; [|discriminate E]. cbn in H. congruence.
  - destruct l1 as [|e l1]; [cbn in H; congruence|]. cbn [app] in E. injection E as -> E. subst tl. rewrite <- app_assoc in NC. apply Forall_app in NC.
    destruct (directory_grows (directory_after d (FCreate f :: l1)) f (l2 ++ rest) c (proj2 NC) H) as [more HM]. rewrite <- directory_after_app in HM.
    cbn [app] in HM. rewrite <- app_assoc in HB. specialize (HB _ HM). rewrite app_length in HB. lia.
Qed.

Lemma small_not_index bytes : length bytes <= 12 -> read_index_file bytes = None.
Proof. intros H. apply too_far. left. lia. Qed.

Section NeverClosed.
Context (d : directory) (p : profile) (fd fi : path) (NE : fd <> fi).

Definition index_small (w : world) (ix : writer) : Prop := exists c, holds d w fi c /\ length c + length (pending (wr_file ix)) <= 12.

Lemma index_small_other w w' ix : extends fd w w' -> index_small w ix -> index_small w' ix.
Proof. intros E (c & H & L). exists c. split; [eapply holds_other; eassumption|exact L]. Qed.

Lemma column_run_index ops : forall w sg cw w1 sg1 rs, both_open d fd fi w sg -> index_small w (sg_index sg) ->
  column_run p w sg cw ops = Ret (w1, sg1, rs) -> index_small w1 (sg_index sg1).
Proof.
  induction ops as [|o ops IH]; intros w sg cw w1 sg1 rs B SM H; cbn [column_run] in H.
  - injection H as <- <- <-. exact SM.
  - destruct (column_step p w sg cw o) as [[[[w0 sg0] cw0] res]|k|] eqn:E; cbn [bind] in H; try discriminate.
    destruct (column_run p w0 sg0 cw0 ops) as [[[w2 sg2] more]|k|] eqn:R; cbn [bind] in H; try discriminate. injection H as <- <- <-.
    assert (G : both_open d fd fi w0 sg0 /\ index_small w0 (sg_index sg0)).
    { split.
      { destruct (column_run_grows d p fd fi NE [o] w sg cw w0 sg0 [res]) as (_ & B0); [exact B|cbn [column_run]; rewrite E; reflexivity|exact B0]. }
      destruct B as [BD BI]. destruct o as [b|]; cbn [column_step] in E.
      - unfold column_write in E. destruct (bin_encode sink_write p (cw_encoder cw) b _) as [[[e [[wx dt] bi]] r0]|k|] eqn:X; cbn [bind] in E; try discriminate.
        injection E as <- <- <- <-. destruct (bin_encode_feed _ _ _ _ _ _ _ _ X) as (_ & bl & F & _).
        destruct (feed_touch d fd _ _ _ _ _ _ _ _ F BD) as (Y & _). eapply index_small_other; eassumption.
      - unfold column_close in E. destruct (bin_flush sink_write p (cw_encoder cw) _) as [[[e [[wx dt] bi]] r0]|k|] eqn:X; cbn [bind] in E; try discriminate.
        destruct (bin_flush_feed _ _ _ _ _ _ _ X) as (_ & bl & r1 & F & _). destruct (feed_touch d fd _ _ _ _ _ _ _ _ F BD) as (Y & _).
        assert (Z : w0 = wx /\ sg_index sg0 = sg_index sg)
          by (destruct r0; [destruct (md_segment_meta (sg_meta sg)); [|discriminate]|]; injection E as <- <- <- <-; auto).
        destruct Z as (-> & ->). eapply index_small_other; eassumption. }
    destruct G as (G1 & G2). exact (IH _ _ _ _ _ _ G1 G2 R).
Qed.

Lemma seg_run_index ops : forall w sg w1 sg1 rs, (forall it, ~ In (SClose it) ops) -> both_open d fd fi w sg -> index_small w (sg_index sg) ->
  seg_run p w sg ops = Ret (w1, sg1, rs) -> index_small w1 (sg_index sg1).
Proof.
  induction ops as [|o ops IH]; intros w sg w1 sg1 rs NC B SM H; cbn [seg_run] in H.
  - injection H as <- <- <-. exact SM.
  - destruct (seg_step p w sg o) as [[[w0 sg0] r0]|k|] eqn:E; cbn [bind] in H; try discriminate.
    destruct (seg_run p w0 sg0 ops) as [[[w2 sg2] more]|k|] eqn:R; cbn [bind] in H; try discriminate. injection H as <- <- <-.
    assert (B0 : both_open d fd fi w0 sg0) by (destruct (seg_run_grows d p fd fi NE [o] w sg w0 sg0 r0) as (_ & B0); [exact B|cbn [seg_run]; rewrite E; cbn [bind]; rewrite app_nil_r; reflexivity|exact B0]).
    apply (IH _ _ _ _ _ (fun it I => NC it (or_intror I)) B0) in R; [exact R|].
    destruct o as [ci cops|it]; [|exfalso; exact (NC it (or_introl eq_refl))]. cbn [seg_step] in E.
    destruct (new_binary_column_writer sg ci) as [sn rn] eqn:NW.
    assert (BN : both_open d fd fi w sn /\ index_small w (sg_index sn)) by (unfold new_binary_column_writer in NW; injection NW as <- <-; split; [exact B|exact SM]). destruct BN as [BN SN].
    destruct rn as [cw|]; [|injection E as <- <- <-; exact SN].
    destruct (column_run p w sn cw cops) as [[[wx sx] rx]|k|] eqn:CR; cbn [bind] in E; try discriminate. injection E as <- <- <-.
    eapply column_run_index; eassumption.
Qed.

Lemma segment_sync_index w sg w1 r : both_open d fd fi w sg -> index_small w (sg_index sg) -> segment_sync w sg = (w1, r) ->
  exists c, holds d w1 fi c /\ length c <= 12.
Proof.
  intros (BD & BI) (c & H & L) E. unfold segment_sync in E. destruct (writer_sync w (sg_index sg)) as [[wa ia] ra] eqn:Sa.
  destruct (sync_touch _ _ _ _ _ _ _ BI Sa) as (Xa & _). destruct BI as (M & P & _).
  assert (HA : exists c, holds d wa fi c /\ length c <= 12).
  { unfold writer_sync in Sa. destruct (tk_sync_all _ _) as [[a f1] rr] eqn:W. injection Sa as <- <- <-. rewrite <- P in H.
    destruct (tk_sync_all_spec _ _ _ _ _ _ _ W H) as (_ & _ & _ & _ & (k & HK) & _). rewrite P in HK. eexists. split; [exact HK|].
    rewrite app_length, firstn_length. lia. }
  destruct ra; [|injection E as <- <-; exact HA]. destruct (writer_sync wa (sg_data sg)) as [[wb db] rb] eqn:Sb. injection E as <- <-.
  assert (Da : opened d fd wa (sg_data sg)) by (eapply opened_other; [exact Xa|congruence|exact BD]).
  destruct (sync_touch _ _ _ _ _ _ _ Da Sb) as (Xb & _). destruct HA as (c' & HC & LC). exists c'. split; [eapply holds_other; eassumption|exact LC].
Qed.
End NeverClosed.

Lemma created_once_app f a b : created_once f a -> a <> [] \/ b = [] -> Forall (fun e => e <> FCreate f) b -> created_once f (a ++ b).
Proof.
  intros [->|(tl & -> & F)] NN G.
  - destruct NN as [X|E]; [congruence|subst b; left; reflexivity].
  - right. exists (tl ++ b). split; [reflexivity|]. apply Forall_app. auto.
Qed.

Lemma extends_no_create f g w w' : extends f w w' -> exists m, wd_log w' = wd_log w ++ m /\ Forall (fun e => e <> FCreate g) m.
Proof. intros (_ & m & L & F & _). exists m. split; [exact L|]. eapply Forall_impl; [|exact F]. cbn. intros e [<- E] ->. exact (E eq_refl). Qed.

Lemma segment_new_index d w base info w1 r : 0 < wd_max w -> is_id (si_segment_id info) -> wd_log w = [] ->
  let fd := data_path base (si_segment_id info) in let fi := index_path base (si_segment_id info) in d fi = None ->
  segment_new w base info = (w1, r) ->
  created_once fi (wd_log w1) /\ (forall c, directory_after d (wd_log w1) fi = Some c -> length c <= 12)
  /\ match r with Ok sg => wd_log w1 <> [] /\ both_open d fd fi w1 sg /\ index_small d fi w1 (sg_index sg) | Err => True end.
Proof.
  intros M ID L0 fd fi D0 N. destruct (C49_distinct base _ _ ID ID) as (_ & _ & NE0). assert (NE : fd <> fi) by (unfold fd, fi; congruence). clear NE0. unfold segment_new in N. fold fi in N. fold fd in N.
  destruct (writer_new w fi) as [wa ra] eqn:Na. destruct (writer_new_touches d _ _ _ _ M Na) as (_ & Ma & Oa).
  assert (La : wd_log wa = match ra with Ok _ => [FCreate fi] | Err => [] end).
  { unfold writer_new, tk_create in Na. destruct (next_fate w) as [fate w0] eqn:NF. destruct (next_fate_inv _ _ _ NF) as (HL & _). rewrite L0 in HL.
    destruct fate; injection Na as <- <-; cbn [effect wd_log]; rewrite HL; reflexivity. }
  destruct ra as [ix|]; [|injection N as <- <-; rewrite La; split; [left; reflexivity|]; split; [cbn; congruence|exact I]].
  destruct Oa as (Oa & Ea & Ha & Ba).
  destruct (writer_new wa fd) as [wb rb] eqn:Nb. destruct (writer_new_touches d wa _ _ _ ltac:(lia) Nb) as (Tb & Mb & Ob).
  assert (COb : created_once fi (wd_log wb) /\ wd_log wb <> []).
  { destruct Tb as (m & -> & F). rewrite La. split; [|discriminate]. right. exists m. split; [reflexivity|]. eapply Forall_impl; [|exact F]. cbn. intros e E ->. cbn in E. congruence. }
  assert (Hb : holds d wb fi []) by (unfold holds in *; rewrite (touches_dir _ d _ _ _ Tb); [exact Ha|congruence]).
  destruct rb as [dt|]; [|injection N as <- <-; split; [apply COb|]; split; [intros c C; unfold holds in Hb; rewrite Hb in C; injection C as <-; cbn; lia|exact I]].
  destruct Ob as (Ob & _). assert (Oi : opened d fi wb ix) by (split; [lia|]; split; [apply Oa|]; exists []; exact Hb).
  unfold write_headers in N. cbn [sg_index sg_data sg_block_index sg_meta] in N.
  destruct (writer_write_block wb ix index_file_signature) as [[wc ic] rc] eqn:Wc. destruct (write_touch _ _ _ _ _ _ _ _ Oi Wc) as (Xc & Oc & _ & _ & HX).
  assert (SC : rc = Ok tt -> index_small d fi wc ic).
  { intros ->. destruct (writer_step_sound d fi wb ix [] (WBlock index_file_signature) wc ic (Ok tt)) as (_ & _ & c & HC & [X|EQ]).
    - split; [lia|]. split; [apply Oa|]. exists []. split; [exact Hb|right]. unfold pending. rewrite Ba. reflexivity.
    - exact Wc.
    - right. reflexivity.
    - rewrite (HX Ea) in X. discriminate X.
    - exists c. split; [exact HC|]. rewrite <- app_length, EQ. vm_compute. lia. }
  assert (HC : exists c, holds d wc fi c /\ length c <= 12).
  { unfold writer_write_block in Wc. destruct (tk_write_all _ _ _ _) as [[a f1] rr] eqn:W. injection Wc as <- <- <-. assert (Hb' := Hb).
    destruct Oa as (_ & Pa & _). rewrite <- Pa in Hb'. destruct (tk_write_all_spec _ _ _ _ _ _ _ _ _ W Hb' (le_n _) ltac:(lia)) as (_ & _ & _ & _ & _ & _ & _ & (k & HK & _) & _).
    rewrite Pa in HK. eexists. split; [exact HK|]. unfold pending. rewrite Ba. cbn [app]. rewrite firstn_length. change (length index_file_signature) with 12. lia. }
  assert (COc : created_once fi (wd_log wc) /\ wd_log wc <> []).
  { destruct (extends_no_create _ fi _ _ Xc) as (m & -> & F). split; [apply created_once_app; [apply COb|left; apply COb|exact F]|]. destruct COb as [_ X]. destruct (wd_log wb); [congruence|discriminate]. }
  destruct rc as [[]|].
  2:{ injection N as <- <-. split; [apply COc|]. split; [|exact I]. intros c C. destruct HC as (c' & H' & L'). unfold holds in H'. rewrite H' in C. injection C as <-. exact L'. }
  assert (Od : opened d fd wc dt) by (eapply opened_other; [exact Xc|congruence|exact Ob]).
  destruct (writer_write_block wc dt data_file_signature) as [[we de] re] eqn:We. destruct (write_touch _ _ _ _ _ _ _ _ Od We) as (Xe & Oe & _).
  assert (COe : created_once fi (wd_log we) /\ wd_log we <> []).
  { destruct (extends_no_create _ fi _ _ Xe) as (m & -> & F). split; [apply created_once_app; [apply COc|left; apply COc|exact F]|]. destruct COc as [_ X]. destruct (wd_log wc); [congruence|discriminate]. }
  assert (HE : forall c, directory_after d (wd_log we) fi = Some c -> length c <= 12).
  { intros c C. destruct HC as (c' & H' & L'). rewrite (holds_other d fd fi _ _ _ Xe NE H') in C. injection C as <-. exact L'. }
  destruct re as [[]|]; injection N as <- <-; (split; [apply COe|]; split; [exact HE|]); [|exact I].
  cbn [sg_index sg_data]. split; [apply COe|]. split; [split; [exact Oe|eapply opened_other; [exact Xe|exact NE|exact Oc]]|].
  eapply index_small_other; [exact NE|exact Xe|apply SC; reflexivity].
Qed.

(** Whatever fails, and wherever the machine stops: even while the segment is
    synced without having been closed. *)
Theorem C69_never_closed : forall sync_names d p w base info w1 sg ops w2 sg2 rs w3 r3 log rest d' bytes,
  0 < wd_max w -> is_id (si_segment_id info) -> wd_log w = [] -> d (index_path base (si_segment_id info)) = None ->
  segment_new w base info = (w1, Ok sg) -> (forall it, ~ In (SClose it) ops) ->
  seg_run p w1 sg ops = Ret (w2, sg2, rs) -> segment_sync w2 sg2 = (w3, r3) ->
  wd_log w3 = log ++ rest -> after_crash sync_names d log d' ->
  d' (index_path base (si_segment_id info)) = Some bytes -> read_index_file bytes = None.
Proof.
  intros sn d p w base info w1 sg ops w2 sg2 rs w3 r3 log rest d' bytes M ID L0 D0 N NC R S3 L3 AC DB.
  destruct (C49_distinct base _ _ ID ID) as (_ & _ & NE0). assert (NE : data_path base (si_segment_id info) <> index_path base (si_segment_id info)) by congruence.
  destruct (segment_new_index d w base info w1 _ M ID L0 D0 N) as (CO & _ & NN & B & SM). set (fd := data_path base (si_segment_id info)) in *. set (fi := index_path base (si_segment_id info)) in *.
  destruct (seg_run_grows d p fd fi NE _ _ _ _ _ _ B R) as (G & B2). pose proof (seg_run_index d p fd fi NE _ _ _ _ _ _ NC B SM R) as SM2.
  pose proof (grows_trans _ _ _ _ G (segment_sync_grows d fd fi NE _ _ _ _ B2 S3)) as (m & LM & FM).
  destruct (segment_sync_index d fd fi NE _ _ _ _ B2 SM2 S3) as (c & HC & LC).
  apply small_not_index. eapply (crash_small sn d fi 12 log rest); try eassumption.
  - rewrite <- L3, LM. apply created_once_app; [exact CO|left; exact NN|]. eapply Forall_impl; [|exact FM]. cbn. intros e [_ X] ->. exact (X _ eq_refl).
  - intros c' C. rewrite <- L3 in C. unfold holds in HC. rewrite HC in C. injection C as <-. exact LC.
Qed.
Print Assumptions C69_never_closed.

(** Creating the segment need not have worked. *)
Theorem C69_not_created : forall sync_names d w base info w1 r log rest d' bytes,
  0 < wd_max w -> is_id (si_segment_id info) -> wd_log w = [] -> d (index_path base (si_segment_id info)) = None ->
  segment_new w base info = (w1, r) ->
  wd_log w1 = log ++ rest -> after_crash sync_names d log d' ->
  d' (index_path base (si_segment_id info)) = Some bytes -> read_index_file bytes = None.
Proof.
  intros sn d w base info w1 r log rest d' bytes M ID L0 D0 N L1 AC DB.
  destruct (segment_new_index d w base info w1 _ M ID L0 D0 N) as (CO & HB & _). rewrite L1 in CO, HB.
  apply small_not_index. eapply crash_small; eassumption.
Qed.
Print Assumptions C69_not_created.

(** * Examples *)

Fixpoint no_four_zeros (l : list N) : bool :=
  match l with
  | [] => true
  | x :: rest => negb (if list_eq_dec N.eq_dec (firstn 4 l) [0; 0; 0; 0]%N then true else false) && no_four_zeros rest
  end.

Lemma no_four_zeros_spec l : no_four_zeros l = true -> forall a b, l <> a ++ [0; 0; 0; 0]%N ++ b.
Proof.
  intros H a. revert l H. induction a as [|x a IH]; intros l H b ->.
  - cbn [app no_four_zeros firstn] in H. destruct (list_eq_dec N.eq_dec [0; 0; 0; 0]%N [0; 0; 0; 0]%N); [discriminate H|congruence].
  - cbn [app no_four_zeros] in H. apply andb_prop in H. apply (IH _ (proj2 H) b). reflexivity.
Qed.

(** C68: an index with two columns, cut anywhere. *)
Theorem C68_witness : exists file,
  file_after (index_path ex_base (si_segment_id ex_info)) (run_from Debug ex_world ex_base ex_info (ex_first ++ [SClose ex_it])) = Some file
  /\ 100 < length file /\ read_index_file file <> None /\ forall k, k < length file -> read_index_file (firstn k file) = None.
Proof.
  set (ops := ex_first).
  destruct (segment_blocks Debug (ops ++ [SClose ex_it])) as [bl|k|] eqn:B; [|vm_compute in B; discriminate B..].
  destruct (ex_run (ops ++ [SClose ex_it]) bl) as (w1 & sg & w2 & sg2 & rs & N & R & A); [repeat constructor|exact B|].
  assert (E : run_from Debug ex_world ex_base ex_info (ops ++ [SClose ex_it]) = Some (w2, sg2, rs)) by (unfold run_from; rewrite N, R; reflexivity).
  assert (F : match file_after (index_path ex_base (si_segment_id ex_info)) (run_from Debug ex_world ex_base ex_info (ops ++ [SClose ex_it])) with
              | Some file => ((100 <? length file) && (length file <? 3080) && no_four_zeros (firstn (length file - 20) (skipn 12 file))) = true /\ read_index_file file <> None
              | None => False end) by (vm_compute; split; [reflexivity|discriminate]).
  destruct (file_after _ _) as [file|] eqn:FA; [|contradiction]. exists file. destruct F as [F RF]. apply andb_prop in F. destruct F as [F NZ]. apply andb_prop in F. destruct F as [F1 F2].
  apply Nat.ltb_lt in F1. apply Nat.ltb_lt in F2. split; [reflexivity|]. split; [exact F1|]. split; [exact RF|]. intros k K. rewrite E in FA.
  refine (C68_small_partial (fun _ => None) Debug ex_world ex_base ex_info w1 sg ops ex_it w2 sg2 rs file k _ _ N _ R A _ FA F2 (no_four_zeros_spec _ NZ) K).
  - cbn. lia.
  - split; [reflexivity|repeat constructor].
  - exact (ex_orders ops ltac:(repeat constructor)).
  - intros it' I. unfold ops in I. cbn in I. repeat (destruct I as [I|I]; [discriminate I|]). exact I.
Qed.
Print Assumptions C68_witness.

(** C69: a column written and closed, both files synced: the data file is there,
    the index has its signature only. *)
Theorem C69_witness :
  let fd := data_path ex_base (si_segment_id ex_info) in let fi := index_path ex_base (si_segment_id ex_info) in
  exists w1 sg w2 sg2 rs w3,
    segment_new ex_world ex_base ex_info = (w1, Ok sg) /\ seg_run Debug w1 sg [SColumn ex_a [CWrite ex_buf; CClose]] = Ret (w2, sg2, rs)
    /\ segment_sync w2 sg2 = (w3, Ok tt)
    /\ forall d', after_crash true (fun _ => None) (wd_log w3) d' ->
         d' fi = Some index_file_signature /\ read_index_file index_file_signature = None /\ option_map (fun f => 100 <? length f) (d' fd) = Some true.
Proof.
  cbn zeta. set (ops := [SColumn ex_a [CWrite ex_buf; CClose]]).
  assert (F : match run_from Debug ex_world ex_base ex_info ops with
              | Some (w, s, _) => snd (segment_sync w s) = Ok tt
                  /\ directory_after (fun _ => None) (wd_log (fst (segment_sync w s))) (index_path ex_base (si_segment_id ex_info)) = Some index_file_signature
                  /\ option_map (fun f => 100 <? length f) (directory_after (fun _ => None) (wd_log (fst (segment_sync w s))) (data_path ex_base (si_segment_id ex_info))) = Some true
              | None => False end) by (vm_compute; repeat split).
  unfold run_from in F. destruct (segment_new ex_world ex_base ex_info) as [w1 [sg|]] eqn:N; [|contradiction].
  destruct (seg_run Debug w1 sg ops) as [[[w2 sg2] rs]|k|] eqn:R; try contradiction.
  destruct (segment_sync w2 sg2) as [w3 r3] eqn:S3. cbn [fst snd] in F. destruct F as (-> & FI & FD).
  exists w1, sg, w2, sg2, rs, w3. split; [reflexivity|]. split; [exact R|]. split; [exact S3|]. intros d' AC.
  destruct (C54_synced_survives_partial (fun _ => None) Debug ex_world ex_base ex_info w1 sg ops w2 sg2 rs w3 [] d') as (XD & XI).
  - cbn. lia.
  - split; [reflexivity|repeat constructor].
  - exact N.
  - exact R.
  - exact S3.
  - constructor.
  - rewrite app_nil_r. exact AC.
  - rewrite XI, XD. split; [exact FI|]. split; [apply small_not_index; vm_compute; lia|exact FD].
Qed.
Print Assumptions C69_witness.
