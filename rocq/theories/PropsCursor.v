(** C80: files that are written through positions of their own. *)
From Verif Require Import Base Sink BinEnc Io SpecIo IoProofs Metadata Names PropsNames Segment SpecSegment SegmentRunProofs PropsSegment PropsSegmentEx PropsSegmentRef PropsReadBack Cursor.
Open Scope nat_scope.

(** ** Writing at the end is appending *)

Lemma overwrite_end old bytes : overwrite old (length old) bytes = old ++ bytes.
Proof.
  unfold overwrite. destruct bytes as [|b bytes]; [symmetry; apply app_nil_r|].
  rewrite firstn_all, Nat.sub_diag, skipn_all2 by lia. cbn [repeat app]. rewrite app_nil_r. reflexivity.
Qed.

(** Nothing is appended to a file that was not created before. *)
Fixpoint created_first (names : list path) (log : list fs_event) : Prop :=
  match log with
  | [] => True
  | FCreate f :: log => created_first (f :: names) log
  | FAppend f _ :: log => In f names /\ created_first names log
  | FSync _ :: log => created_first names log
  end.

(** The names in a log have different numbers. *)
Definition tell_apart (hs : path -> nat) (names : list path) : Prop :=
  forall f g, In f names -> In g names -> hs f = hs g -> f = g.

(** The files [names] are open, at their ends. *)
Definition at_end (hs : path -> nat) (names : list path) (dk : disk) : Prop :=
  forall f, In f names -> exists c, dk_files dk f = Some c /\ dk_handles dk (hs f) = Some (f, length c).

Lemma at_end_log hs : forall log names dk d, at_end hs names dk -> (forall f, dk_files dk f = d f) -> created_first names log ->
  tell_apart hs (names ++ map event_path log) ->
  forall f, dk_files (disk_after dk (map (through hs) log)) f = directory_after d log f.
Proof.
  induction log as [|e log IH]; intros names dk d A E O T f; [exact (E f)|].
  unfold disk_after, directory_after in *. cbn [map fold_left]. destruct e as [g|g bytes|g]; cbn [created_first event_path map] in *.
  - apply (IH (g :: names)); [| |exact O|].
    + intros k Hk. cbn [handle_step through dk_files dk_handles]. destruct (path_dec k g) as [->|NE].
      * exists []. rewrite Nat.eqb_refl. split; reflexivity.
      * destruct Hk as [->|Hk]; [congruence|]. destruct (A k Hk) as (c & C1 & C2). exists c. split; [exact C1|].
        destruct (Nat.eqb_spec (hs k) (hs g)) as [EQ|_]; [|exact C2]. exfalso. apply NE. apply T; [apply in_or_app; left; exact Hk|apply in_or_app; right; left; reflexivity|exact EQ].
    + intros k. cbn [handle_step through dk_files apply_effect]. destruct (path_dec k g); [reflexivity|apply E].
    + intros a b Ha Hb. apply T; [clear Hb|clear Ha]; rewrite !in_app_iff in *; cbn [In] in *; tauto.
  - destruct O as [Hg O]. destruct (A g Hg) as (c & C1 & C2). apply (IH names); [| |exact O|].
    + intros k Hk. cbn [handle_step through]. rewrite C2. cbn [dk_files dk_handles]. destruct (path_dec k g) as [->|NE].
      * exists (c ++ bytes). rewrite C1, Nat.eqb_refl. cbn [option_map]. rewrite overwrite_end, app_length. split; reflexivity.
      * destruct (A k Hk) as (c' & D1 & D2). exists c'. split; [exact D1|].
        destruct (Nat.eqb_spec (hs k) (hs g)) as [EQ|_]; [|exact D2]. exfalso. apply NE. apply T; [apply in_or_app; left; exact Hk|apply in_or_app; left; exact Hg|exact EQ].
    + intros k. cbn [handle_step through]. rewrite C2. cbn [dk_files apply_effect]. destruct (path_dec k g) as [->|NE]; [|apply E].
      rewrite <- E, C1. cbn [option_map]. rewrite overwrite_end. reflexivity.
    + intros a b Ha Hb. apply T; [clear Hb|clear Ha]; rewrite !in_app_iff in *; cbn [In] in *; tauto.
  - apply (IH names); [exact A|intros k; cbn [apply_effect]; apply E|exact O|].
    intros a b Ha Hb. apply T; [clear Hb|clear Ha]; rewrite !in_app_iff in *; cbn [In] in *; tauto.
Qed.

(** C80, one writer per file: the view of Io.v is right.  The files are the same
    whether every write goes to the end of its file or to the position of the
    open file it goes through, if each file is written through one open file. *)
Theorem C80_end_of_file_partial : forall hs log d,
  created_first [] log -> tell_apart hs (map event_path log) ->
  forall f, dk_files (disk_after (no_handles d) (map (through hs) log)) f = directory_after d log f.
Proof.
  intros hs log d O T f. apply (at_end_log hs log [] (no_handles d) d); [intros g []|reflexivity|exact O|exact T].
Qed.
Print Assumptions C80_end_of_file_partial.

(** ** Segments *)

Lemma created_both fi fd : forall log names, In fi names -> In fd names ->
  Forall (fun e => event_path e = fd \/ event_path e = fi) log -> created_first names log.
Proof.
  induction log as [|e log IH]; intros names H1 H2 F; [exact I|]. apply Forall_cons_iff in F. destruct F as [F1 F].
  destruct e as [f|f b|f]; cbn [created_first event_path] in *.
  - apply IH; [right; exact H1|right; exact H2|exact F].
  - split; [destruct F1 as [-> | ->]; assumption|apply IH; assumption].
  - apply IH; assumption.
Qed.

Lemma writer_new_log w f w1 wr : writer_new w f = (w1, Ok wr) -> wd_log w1 = wd_log w ++ [FCreate f].
Proof.
  intros H. unfold writer_new, tk_create in H. destruct (next_fate w) as [fate w0] eqn:NF. destruct (next_fate_inv _ _ _ NF) as (HL & _).
  destruct fate; [discriminate H|]. injection H as <- _. cbn [effect wd_log]. rewrite HL. reflexivity.
Qed.

(** What a segment writer does: it creates its two files and then touches only
    these. *)
Lemma segment_effects_log p w base info ops l : is_id (si_segment_id info) -> segment_effects p w base info ops l ->
  let fd := data_path base (si_segment_id info) in let fi := index_path base (si_segment_id info) in
  exists rest, l = FCreate fi :: FCreate fd :: rest /\ Forall (fun e => event_path e = fd \/ event_path e = fi) rest.
Proof.
  intros ID SE fd fi. pose proof SE as (L & M & w1 & sg & w2 & sg2 & rs & N & R & E).
  assert (d : directory) by exact (fun _ => None).
  destruct (C49_distinct base _ _ ID ID) as (_ & _ & NE). fold fd fi in NE.
  destruct (segment_new_touches d _ _ _ _ _ M ID N) as (_ & B). cbv zeta in B. fold fd fi in B.
  destruct (seg_run_touches d p _ _ NE _ _ _ _ _ _ B R) as (T2 & B2).
  assert (NEW : exists m, wd_log w1 = FCreate fi :: FCreate fd :: m /\ Forall (fun e => event_path e = fd \/ event_path e = fi) m).
  { clear R E T2 B2 B SE. unfold segment_new in N. fold fd fi in N.
    destruct (writer_new w fi) as [wa [ix|]] eqn:Na; [|discriminate N]. destruct (writer_new_touches d _ _ _ _ M Na) as (Ta & Ma & Oa & _).
    destruct (writer_new wa fd) as [wb [dt|]] eqn:Nb; [|discriminate N]. destruct (writer_new_touches d wa fd wb _ ltac:(lia) Nb) as (Tb & Mb & Ob & _).
    assert (Oi : opened d fi wb ix).
    { destruct Oa as (M0 & P0 & c & H0). split; [lia|]. split; [exact P0|]. exists c. unfold holds in *. rewrite (touches_dir _ d _ _ _ Tb); [exact H0|congruence]. }
    pose proof (writer_new_log _ _ _ _ Na) as La. pose proof (writer_new_log _ _ _ _ Nb) as Lb. rewrite L in La. cbn [app] in La. rewrite La in Lb. cbn [app] in Lb.
    unfold write_headers in N. cbn [sg_index sg_data sg_block_index sg_meta] in N.
    destruct (writer_write_block wb ix index_file_signature) as [[wc ic] rc] eqn:Wc. destruct (write_touch _ _ _ _ _ _ _ _ Oi Wc) as (Xc & _).
    destruct rc; [|discriminate N].
    assert (Od : opened d fd wc dt) by (eapply opened_other; [exact Xc|congruence|exact Ob]).
    destruct (writer_write_block wc dt data_file_signature) as [[we de] re] eqn:We. destruct (write_touch _ _ _ _ _ _ _ _ Od We) as (Xe & _).
    assert (we = w1) by (destruct re; injection N as N _; exact N). subst we.
    destruct Xc as (_ & mc & Lc & Fc & _). destruct Xe as (_ & me & Le & Fe & _). exists (mc ++ me). rewrite Le, Lc, Lb. split; [reflexivity|].
    apply Forall_app. split; [eapply Forall_impl; [|exact Fc]|eapply Forall_impl; [|exact Fe]]; cbn; intros e [H _]; tauto. }
  destruct NEW as (m & E1 & F1).
  assert (T : exists w3, touches (fun g => g = fd \/ g = fi) w1 w3 /\ l = wd_log w3).
  { destruct E as [->|(w3 & r & S3 & ->)]; [exists w2; split; [exact T2|reflexivity]|].
    exists w3. split; [|reflexivity]. eapply touches_trans; [exact T2|]. eapply segment_sync_touches; eassumption. }
  destruct T as (w3 & (m2 & LM & F) & ->). rewrite LM, E1. cbn [app]. exists (m ++ m2). split; [reflexivity|]. apply Forall_app. split; assumption.
Qed.

(** One segment. *)
Theorem C80_segment_partial : forall p w base info ops l hs d,
  is_id (si_segment_id info) -> segment_effects p w base info ops l ->
  hs (data_path base (si_segment_id info)) <> hs (index_path base (si_segment_id info)) ->
  forall f, dk_files (disk_after (no_handles d) (map (through hs) l)) f = directory_after d l f.
Proof.
  intros p w base info ops l hs d ID SE NH. destruct (segment_effects_log _ _ _ _ _ _ ID SE) as (rest & -> & F).
  apply C80_end_of_file_partial.
  - cbn [created_first]. eapply created_both; [right; left; reflexivity|left; reflexivity|exact F].
  - set (fd := data_path base (si_segment_id info)) in *. set (fi := index_path base (si_segment_id info)) in *.
    assert (X : forall f, In f (map event_path (FCreate fi :: FCreate fd :: rest)) -> f = fd \/ f = fi).
    { intros f. cbn [map event_path In]. intros [<-|[<-|H]]; auto. apply in_map_iff in H. destruct H as (e & <- & H). rewrite Forall_forall in F. auto. }
    intros f g Hf Hg E. destruct (X f Hf) as [-> | ->], (X g Hg) as [-> | ->]; congruence.
Qed.
Print Assumptions C80_segment_partial.

Lemma created_weaken : forall log a b, incl a b -> created_first a log -> created_first b log.
Proof.
  induction log as [|[f|f x|f] log IH]; intros a b H C; cbn [created_first] in *; auto.
  - eapply IH; [|exact C]. apply incl_cons; [left; reflexivity|apply incl_tl; exact H].
  - destruct C as [C1 C2]. split; [apply H; exact C1|eapply IH; eauto].
  - eapply IH; eauto.
Qed.

Lemma created_interleaved l1 l2 l : interleaved l1 l2 l -> forall names, created_first names l1 -> created_first names l2 -> created_first names l.
Proof.
  induction 1 as [|e a b l _ IH|e a b l _ IH]; intros names C1 C2; [exact I| |].
  - destruct e as [f|f x|f]; cbn [created_first] in *.
    + apply IH; [exact C1|]. eapply created_weaken; [|exact C2]. apply incl_tl, incl_refl.
    + split; [apply C1|apply IH; [apply C1|exact C2]].
    + apply IH; assumption.
  - destruct e as [f|f x|f]; cbn [created_first] in *.
    + apply IH; [|exact C2]. eapply created_weaken; [|exact C1]. apply incl_tl, incl_refl.
    + split; [apply C2|apply IH; [exact C1|apply C2]].
    + apply IH; assumption.
Qed.

Lemma interleaved_map {A B} (f : A -> B) l1 : forall l2 l, interleaved (map f l1) (map f l2) l -> exists l', l = map f l' /\ interleaved l1 l2 l'.
Proof.
  assert (X : forall a b l, interleaved a b l -> forall l1 l2, a = map f l1 -> b = map f l2 -> exists l', l = map f l' /\ interleaved l1 l2 l').
  { clear. induction 1 as [|x a b l _ IH|x a b l _ IH]; intros l1 l2 E1 E2.
    - destruct l1, l2; try discriminate. exists []. split; [reflexivity|constructor].
    - destruct l1 as [|y l1]; [discriminate|]. injection E1 as -> E1. destruct (IH l1 l2 E1 E2) as (l' & -> & I). exists (y :: l'). split; [reflexivity|constructor; exact I].
    - destruct l2 as [|y l2]; [discriminate|]. injection E2 as -> E2. destruct (IH l1 l2 E1 E2) as (l' & -> & I). exists (y :: l'). split; [reflexivity|constructor; exact I]. }
  intros l2 l H. eapply X; eauto.
Qed.

Lemma interleaved_in {A} (a b l : list A) : interleaved a b l -> forall x, In x l -> In x a \/ In x b.
Proof. induction 1 as [|x a b l _ IH|x a b l _ IH]; intros y; cbn [In]; [tauto| |]; intros [H|H]; auto; destruct (IH _ H); auto. Qed.

(** Two segments with different identifiers: each has the files it would have
    alone, however their effects are mixed. *)
Theorem C80_two_segments_partial : forall d p1 w1 info1 ops1 l1 p2 w2 info2 ops2 l2 base l hs1 hs2,
  is_id (si_segment_id info1) -> is_id (si_segment_id info2) -> si_segment_id info1 <> si_segment_id info2 ->
  segment_effects p1 w1 base info1 ops1 l1 -> segment_effects p2 w2 base info2 ops2 l2 ->
  let fd1 := data_path base (si_segment_id info1) in let fi1 := index_path base (si_segment_id info1) in
  let fd2 := data_path base (si_segment_id info2) in let fi2 := index_path base (si_segment_id info2) in
  NoDup [hs1 fd1; hs1 fi1; hs2 fd2; hs2 fi2] ->
  interleaved (map (through hs1) l1) (map (through hs2) l2) l ->
  let files := dk_files (disk_after (no_handles d) l) in
  files fd1 = directory_after d l1 fd1 /\ files fi1 = directory_after d l1 fi1
  /\ files fd2 = directory_after d l2 fd2 /\ files fi2 = directory_after d l2 fi2.
Proof.
  intros d p1 w1 info1 ops1 l1 p2 w2 info2 ops2 l2 base l hs1 hs2 ID1 ID2 NE SE1 SE2 fd1 fi1 fd2 fi2 ND IL files.
  destruct (segment_effects_log _ _ _ _ _ _ ID1 SE1) as (r1 & E1 & F1). destruct (segment_effects_log _ _ _ _ _ _ ID2 SE2) as (r2 & E2 & F2).
  fold fd1 fi1 in E1, F1. fold fd2 fi2 in E2, F2.
  destruct (C49_distinct base _ _ ID1 ID2) as (D12 & I12 & X12). destruct (C49_distinct base _ _ ID2 ID1) as (_ & _ & X21).
  destruct (C49_distinct base _ _ ID1 ID1) as (_ & _ & X11). destruct (C49_distinct base _ _ ID2 ID2) as (_ & _ & X22).
  fold fd1 fi1 fd2 fi2 in D12, I12, X12, X21, X11, X22.
  assert (P1 : forall e, In e l1 -> event_path e = fd1 \/ event_path e = fi1).
  { intros e. rewrite E1. intros [<-|[<-|H]]; cbn [event_path]; auto. rewrite Forall_forall in F1. auto. }
  assert (P2 : forall e, In e l2 -> event_path e = fd2 \/ event_path e = fi2).
  { intros e. rewrite E2. intros [<-|[<-|H]]; cbn [event_path]; auto. rewrite Forall_forall in F2. auto. }
  assert (N1 : fd1 <> fd2) by (intros Q; apply NE, D12, Q). assert (N2 : fi1 <> fi2) by (intros Q; apply NE, I12, Q).
  set (hs := fun g => if path_dec g fd1 then hs1 fd1 else if path_dec g fi1 then hs1 fi1 else hs2 g).
  assert (M1 : map (through hs1) l1 = map (through hs) l1).
  { apply map_ext_in. intros e He. specialize (P1 e He). assert (hs1 (event_path e) = hs (event_path e)) as H.
    { unfold hs. destruct P1 as [-> | ->]; [destruct (path_dec fd1 fd1); congruence|]. destruct (path_dec fi1 fd1); [congruence|]. destruct (path_dec fi1 fi1); congruence. }
    destruct e; cbn [through event_path] in *; rewrite H; reflexivity. }
  assert (M2 : map (through hs2) l2 = map (through hs) l2).
  { apply map_ext_in. intros e He. specialize (P2 e He). assert (hs2 (event_path e) = hs (event_path e)) as H.
    { unfold hs. destruct P2 as [-> | ->].
      - destruct (path_dec fd2 fd1); [congruence|]. destruct (path_dec fd2 fi1); [congruence|reflexivity].
      - destruct (path_dec fi2 fd1); [congruence|]. destruct (path_dec fi2 fi1); [congruence|reflexivity]. }
    destruct e; cbn [through event_path] in *; rewrite H; reflexivity. }
  rewrite M1, M2 in IL. destruct (interleaved_map _ _ _ _ IL) as (l' & -> & IL').
  assert (SAME : forall f, files f = directory_after d l' f).
  { apply C80_end_of_file_partial.
    - eapply created_interleaved; [exact IL'| |]; [rewrite E1|rewrite E2]; cbn [created_first]; (eapply created_both; [right; left; reflexivity|left; reflexivity|assumption]).
    - assert (X : forall f, In f (map event_path l') -> f = fd1 \/ f = fi1 \/ f = fd2 \/ f = fi2).
      { intros f H. apply in_map_iff in H. destruct H as (e & <- & H). destruct (interleaved_in _ _ _ IL' _ H) as [H'|H']; [destruct (P1 _ H')|destruct (P2 _ H')]; auto. }
      assert (H1 : hs fd1 = hs1 fd1) by (unfold hs; destruct (path_dec fd1 fd1); congruence).
      assert (H2 : hs fi1 = hs1 fi1) by (unfold hs; destruct (path_dec fi1 fd1); [congruence|]; destruct (path_dec fi1 fi1); congruence).
      assert (H3 : hs fd2 = hs2 fd2) by (unfold hs; destruct (path_dec fd2 fd1); [congruence|]; destruct (path_dec fd2 fi1); congruence).
      assert (H4 : hs fi2 = hs2 fi2) by (unfold hs; destruct (path_dec fi2 fd1); [congruence|]; destruct (path_dec fi2 fi1); congruence).
      rewrite <- H1, <- H2, <- H3, <- H4 in ND. clear -X ND.
      assert (Y : forall (a b c e : nat), NoDup [a; b; c; e] -> a <> b /\ a <> c /\ a <> e /\ b <> c /\ b <> e /\ c <> e).
      { clear. intros a b c e ND. repeat (match goal with H : NoDup (_ :: _) |- _ => inversion H; clear H; subst end). cbn [In] in *. repeat split; intros ->; tauto. }
      apply Y in ND. intros f g Hf Hg E. destruct (X f Hf) as [-> |[-> |[-> | ->]]], (X g Hg) as [-> |[-> |[-> | ->]]]; try reflexivity; exfalso; intuition congruence. }
  rewrite !SAME. exact (C67_no_interference d p1 w1 info1 ops1 l1 p2 w2 info2 ops2 l2 base l' ID1 ID2 NE SE1 SE2 IL').
Qed.
Print Assumptions C80_two_segments_partial.

(** ** One file, two writers *)

Lemma overwrite_nth old pos bytes i :
  nth i (overwrite old pos bytes) 0%N = if (pos <=? i) && (i <? pos + length bytes) then nth (i - pos) bytes 0%N else nth i old 0%N.
Proof.
  unfold overwrite. destruct bytes as [|b bytes].
  - cbn [length]. destruct (Nat.leb_spec pos i); destruct (Nat.ltb_spec i (pos + 0)); cbn [andb]; [lia|reflexivity..].
  - set (bs := b :: bytes). clearbody bs. clear b bytes.
    assert (LF : length (firstn pos old) = min pos (length old)) by apply firstn_length.
    destruct (Nat.leb_spec pos i) as [L1|L1]; cbn [andb].
    + rewrite (app_nth2 (firstn pos old)) by lia. rewrite LF, (app_nth2 (repeat 0%N _)) by (rewrite repeat_length; lia). rewrite repeat_length.
      replace (i - min pos (length old) - (pos - length old)) with (i - pos) by lia.
      destruct (Nat.ltb_spec i (pos + length bs)) as [L2|L2].
      * apply app_nth1. lia.
      * rewrite app_nth2 by lia. rewrite <- (firstn_skipn (pos + length bs) old) at 2.
        destruct (Nat.le_gt_cases (pos + length bs) (length old)) as [L3|L3].
        -- rewrite app_nth2 by (rewrite firstn_length; lia). rewrite firstn_length. f_equal. lia.
        -- rewrite (skipn_all2 old) by lia. rewrite app_nil_r, nth_overflow by (cbn; lia). symmetry. apply nth_overflow. rewrite firstn_length. lia.
    + destruct (Nat.lt_ge_cases i (length old)) as [L2|L2].
      * rewrite app_nth1 by lia. rewrite <- (firstn_skipn pos old) at 2. symmetry. apply app_nth1. lia.
      * rewrite app_nth2 by lia. rewrite app_nth1 by (rewrite repeat_length; lia). rewrite (nth_overflow old) by lia.
        apply nth_repeat.
Qed.

Lemma overwrite_length old pos bytes : length (overwrite old pos bytes) = match bytes with [] => length old | _ => max (length old) (pos + length bytes) end.
Proof.
  unfold overwrite. destruct bytes as [|b bytes]; [reflexivity|]. set (bs := b :: bytes).
  rewrite !app_length, firstn_length, repeat_length, skipn_length. lia.
Qed.

(** What was written through the open file [h]. *)
Definition written (h : nat) (log : list handle_event) : list N :=
  flat_map (fun e => match e with HWrite k bytes => if k =? h then bytes else [] | _ => [] end) log.

(** Nobody but [h1] and [h2] has to do with the file [f]. *)
Definition leaves_alone (f : path) (h1 h2 : nat) (e : handle_event) : Prop :=
  match e with HCreate h g => g <> f /\ h <> h1 /\ h <> h2 | _ => True end.

(** C80, two writers of one file, exactly: when [h1] has written [c] bytes to
    [f], [h2] is opened for it, and then both write, [X] and [Y], in any order.
    The first [c] bytes are those of [h2], zero where it wrote none; behind what
    [h2] wrote are the bytes of [h1], and the other way round; where both wrote,
    there is what one of them wrote. *)
Theorem C80_two_writers_exact : forall dk f h1 h2 c l,
  h1 <> h2 -> dk_handles dk h1 = Some (f, c) -> (forall h pos, dk_handles dk h = Some (f, pos) -> h = h1 \/ h = h2) ->
  Forall (leaves_alone f h1 h2) l ->
  let X := written h1 l in let Y := written h2 l in
  exists C, dk_files (disk_after dk (HCreate h2 f :: l)) f = Some C
    /\ length C = max (match X with [] => 0 | _ => c + length X end) (length Y)
    /\ forall i, i < length C ->
         (i < c -> nth i C 0%N = nth i Y 0%N)
         /\ (c <= i -> length Y <= i -> nth i C 0%N = nth (i - c) X 0%N)
         /\ (c + length X <= i -> nth i C 0%N = nth i Y 0%N)
         /\ (c <= i -> nth i C 0%N = nth (i - c) X 0%N \/ nth i C 0%N = nth i Y 0%N).
Proof.
  intros dk f h1 h2 c l NE H1 HO HL. cbv zeta.
  assert (INV : exists C, dk_files (disk_after dk (HCreate h2 f :: l)) f = Some C
    /\ dk_handles (disk_after dk (HCreate h2 f :: l)) h1 = Some (f, c + length (written h1 l))
    /\ dk_handles (disk_after dk (HCreate h2 f :: l)) h2 = Some (f, length (written h2 l))
    /\ (forall h pos, dk_handles (disk_after dk (HCreate h2 f :: l)) h = Some (f, pos) -> h = h1 \/ h = h2)
    /\ length C = max (match written h1 l with [] => 0 | _ => c + length (written h1 l) end) (length (written h2 l))
    /\ forall i, 
         (i < c -> nth i C 0%N = nth i (written h2 l) 0%N)
         /\ (c <= i -> length (written h2 l) <= i -> nth i C 0%N = nth (i - c) (written h1 l) 0%N)
         /\ (c + length (written h1 l) <= i -> nth i C 0%N = nth i (written h2 l) 0%N)
         /\ (c <= i -> nth i C 0%N = nth (i - c) (written h1 l) 0%N \/ nth i C 0%N = nth i (written h2 l) 0%N)).
  { induction l as [|e l IH] using rev_ind.
    - exists []. unfold disk_after. cbn [fold_left handle_step dk_files dk_handles written flat_map length]. destruct (path_dec f f) as [_|Q]; [|congruence].
      destruct (Nat.eqb_spec h1 h2) as [Q|_]; [congruence|]. rewrite Nat.eqb_refl, Nat.add_0_r. split; [reflexivity|]. split; [exact H1|]. split; [reflexivity|].
      split; [|split; [reflexivity|intros i; rewrite !(nth_overflow (@nil N)) by (cbn; lia); auto]].
      intros h pos. destruct (Nat.eqb_spec h h2); [auto|apply HO].
    - apply Forall_app in HL. destruct HL as [HL HE]. apply Forall_cons_iff in HE. destruct HE as [HE _].
      destruct (IH HL) as (C & F & A1 & A2 & AO & LC & V). clear IH. unfold disk_after in *. rewrite app_comm_cons, fold_left_app. cbn [fold_left] in *.
      set (dk1 := fold_left handle_step l (handle_step dk (HCreate h2 f))) in *. clearbody dk1.
      assert (WA : forall h, written h (l ++ [e]) = written h l ++ written h [e]) by (intros h; unfold written; apply flat_map_app).
      rewrite !WA.
      destruct e as [h g|h bytes|h].
      + cbn [written flat_map app]. rewrite !app_nil_r. destruct HE as (G1 & G2 & G3). exists C. cbn [handle_step dk_files dk_handles].
        destruct (path_dec f g); [congruence|]. destruct (Nat.eqb_spec h1 h); [congruence|]. destruct (Nat.eqb_spec h2 h); [congruence|].
        repeat (split; [assumption|]). split; [|split; [assumption|exact V]]. intros k pos. destruct (Nat.eqb_spec k h); [|apply AO]. intros Q. congruence.
      + cbn [handle_step]. destruct (Nat.eq_dec h h1) as [->|N1]; [|destruct (Nat.eq_dec h h2) as [->|N2]].
        * rewrite A1. cbn [dk_files dk_handles written flat_map]. rewrite Nat.eqb_refl. destruct (path_dec f f) as [_|Q]; [|congruence].
          destruct (Nat.eqb_spec h2 h1) as [Q|_]; [congruence|]. destruct (Nat.eqb_spec h1 h2) as [Q|_]; [congruence|].
          rewrite F. cbn [option_map]. rewrite !app_nil_r, app_length. eexists. split; [reflexivity|]. split; [do 2 f_equal; lia|]. split; [exact A2|].
          split; [intros k pos; destruct (Nat.eqb_spec k h1); [auto|apply AO]|]. split.
          -- rewrite overwrite_length, LC. destruct bytes as [|b bytes]; [rewrite app_nil_r; cbn [length]; rewrite ?Nat.add_0_r; reflexivity|].
             destruct (written h1 l) as [|x X]; cbn [app length]; lia.
          -- intros i. rewrite overwrite_nth. destruct (V i) as (V1 & V2 & V3 & V4).
             destruct (Nat.leb_spec (c + length (written h1 l)) i) as [L1|L1]; cbn [andb].
             ++ destruct (Nat.ltb_spec i (c + length (written h1 l) + length bytes)) as [L2|L2].
                ** assert (EN : nth (i - (c + length (written h1 l))) bytes 0%N = nth (i - c) (written h1 l ++ bytes) 0%N) by (rewrite app_nth2 by lia; f_equal; lia).
                   split; [lia|]. split; [intros; exact EN|]. split; [lia|]. left. exact EN.
                ** split; [lia|]. split; [intros _ L3; rewrite V2 by lia; rewrite !nth_overflow by (rewrite ?app_length; lia); reflexivity|].
                   split; [intros; apply V3; lia|]. right. apply V3. lia.
             ++ split; [exact V1|]. split; [intros L2 L3; rewrite V2 by lia; symmetry; apply app_nth1; lia|]. split; [lia|].
                intros L2. rewrite app_nth1 by lia. apply V4. exact L2.
        * rewrite A2. cbn [dk_files dk_handles written flat_map]. rewrite Nat.eqb_refl. destruct (path_dec f f) as [_|Q]; [|congruence].
          destruct (Nat.eqb_spec h2 h1) as [Q|_]; [congruence|]. destruct (Nat.eqb_spec h1 h2) as [Q|_]; [congruence|].
          rewrite F. cbn [option_map]. rewrite !app_nil_r, app_length. eexists. split; [reflexivity|]. split; [exact A1|]. split; [reflexivity|].
          split; [intros k pos; destruct (Nat.eqb_spec k h2); [auto|apply AO]|]. split.
          -- rewrite overwrite_length, LC. destruct bytes as [|b bytes]; cbn [length]; lia.
          -- intros i. rewrite overwrite_nth. destruct (V i) as (V1 & V2 & V3 & V4).
             destruct (Nat.leb_spec (length (written h2 l)) i) as [L1|L1]; cbn [andb].
             ++ destruct (Nat.ltb_spec i (length (written h2 l) + length bytes)) as [L2|L2].
                ** assert (EN : nth (i - length (written h2 l)) bytes 0%N = nth i (written h2 l ++ bytes) 0%N) by (rewrite app_nth2 by lia; reflexivity).
                   split; [intros; exact EN|]. split; [lia|]. split; [intros; exact EN|]. right. exact EN.
                ** rewrite (nth_overflow (_ ++ _)) by (rewrite app_length; lia). rewrite (nth_overflow (written h2 l)) in * by lia.
                   split; [exact V1|]. split; [intros; apply V2; lia|]. split; [exact V3|exact V4].
             ++ rewrite app_nth1 by lia. split; [exact V1|]. split; [intros; lia|]. split; [exact V3|exact V4].
        * cbn [written flat_map]. destruct (Nat.eqb_spec h h1) as [Q|_]; [congruence|]. destruct (Nat.eqb_spec h h2) as [Q|_]; [congruence|].
          cbn [app]. rewrite !app_nil_r. destruct (dk_handles dk1 h) as [[g pos]|] eqn:EH.
          -- assert (g <> f) by (intros ->; destruct (AO _ _ EH); congruence). exists C. cbn [dk_files dk_handles].
             destruct (path_dec f g); [congruence|]. destruct (Nat.eqb_spec h1 h); [congruence|]. destruct (Nat.eqb_spec h2 h); [congruence|].
             repeat (split; [assumption|]). split; [|split; [assumption|exact V]]. intros k q. destruct (Nat.eqb_spec k h); [congruence|apply AO].
          -- exists C. repeat (split; [assumption|]). exact V.
      + cbn [written flat_map app handle_step]. rewrite !app_nil_r. exists C. repeat (split; [assumption|]). exact V. }
  destruct INV as (C & F & _ & _ & _ & LC & V). exists C. split; [exact F|]. split; [exact LC|]. intros i _. apply V.
Qed.
Print Assumptions C80_two_writers_exact.

(** A file that was written before, by whomever, does not matter to a segment
    writer as long as nobody else writes to it from now on. *)
Theorem C80_last_writer_partial : forall before p w base info ops l hs d,
  is_id (si_segment_id info) -> segment_effects p w base info ops l ->
  hs (data_path base (si_segment_id info)) <> hs (index_path base (si_segment_id info)) ->
  forall f, f = data_path base (si_segment_id info) \/ f = index_path base (si_segment_id info) ->
  dk_files (disk_after (disk_after (no_handles d) before) (map (through hs) l)) f = directory_after (fun _ => None) l f.
Proof.
  intros before p w base info ops l hs d ID SE NH f Hf. destruct (segment_effects_log _ _ _ _ _ _ ID SE) as (rest & -> & F).
  set (fd := data_path base (si_segment_id info)) in *. set (fi := index_path base (si_segment_id info)) in *.
  set (dk := disk_after (no_handles d) before). rewrite (at_end_log hs _ [] dk (dk_files dk)); [|intros g []|reflexivity| |].
  - assert (X : forall log (d1 d2 : directory), d1 f = d2 f -> directory_after d1 log f = directory_after d2 log f).
    { clear. induction log as [|e log IH]; intros d1 d2 E; [exact E|]. unfold directory_after in *. cbn [fold_left]. apply IH.
      destruct e as [g|g b|g]; cbn [apply_effect]; [destruct (path_dec f g); [reflexivity|exact E]|rewrite E; reflexivity|exact E]. }
    unfold directory_after. cbn [fold_left]. apply X. cbn [apply_effect].
    destruct (path_dec f fd); [reflexivity|]. destruct (path_dec f fi); [reflexivity|]. destruct Hf; congruence.
  - cbn [created_first]. eapply created_both; [right; left; reflexivity|left; reflexivity|exact F].
  - cbn [app]. assert (X : forall g, In g (map event_path (FCreate fi :: FCreate fd :: rest)) -> g = fd \/ g = fi).
    { intros g. cbn [map event_path In]. intros [<-|[<-|H]]; auto. apply in_map_iff in H. destruct H as (e & <- & H). rewrite Forall_forall in F. auto. }
    intros g k Hg Hk E. destruct (X g Hg) as [-> | ->], (X k Hk) as [-> | ->]; congruence.
Qed.
Print Assumptions C80_last_writer_partial.

(** ** Two writers of one segment *)

(** Creating, writing, closing and syncing a segment, where everything succeeds. *)
Definition synced_log (info : segment_info) (ops : list seg_op) : list fs_event :=
  match run_from Debug ex_world ex_base info ops with
  | Some (w, sg, _) => wd_log (fst (segment_sync w sg))
  | None => []
  end.

Definition ex_files (n : nat) (g : path) : nat := if path_dec g (index_path ex_base (si_segment_id ex_info)) then n else S n.

(** The first writer creates the segment and has its index file started; the
    second creates it too, writes a column, closes and syncs; the first closes and
    syncs.  Every call reports success, to either writer, but the index file is
    neither's: it cannot be read. *)
Theorem C80_same_segment_refuted :
  let a := synced_log ex_info [SClose ex_it] in let b := synced_log ex_info rs_ops in
  let mixed := map (through (ex_files 0)) (firstn 3 a) ++ map (through (ex_files 2)) b ++ map (through (ex_files 0)) (skipn 3 a) in
  let files := dk_files (disk_after (no_handles (fun _ => None)) mixed) in
  segment_effects Debug ex_world ex_base ex_info [SClose ex_it] a /\ segment_effects Debug ex_world ex_base ex_info rs_ops b
  /\ (match run_from Debug ex_world ex_base ex_info [SClose ex_it] with Some (w, sg, rs) => all_ok rs /\ snd (segment_sync w sg) = Ok tt | None => False end)
  /\ (match run_from Debug ex_world ex_base ex_info rs_ops with Some (w, sg, rs) => all_ok rs /\ snd (segment_sync w sg) = Ok tt | None => False end)
  /\ option_map read_index_file (files (index_path ex_base (si_segment_id ex_info))) = Some None
  /\ option_map read_index_file (directory_after (fun _ => None) a (index_path ex_base (si_segment_id ex_info))) <> Some None
  /\ option_map read_index_file (directory_after (fun _ => None) b (index_path ex_base (si_segment_id ex_info))) <> Some None.
Proof.
  cbv zeta.
  assert (G : forall ops, synced_log ex_info ops <> [] -> segment_effects Debug ex_world ex_base ex_info ops (synced_log ex_info ops)).
  { intros ops. unfold segment_effects, synced_log, run_from. destruct (segment_new ex_world ex_base ex_info) as [w1 [sg|]] eqn:N; [|congruence].
    destruct (seg_run Debug w1 sg ops) as [[[w2 sg2] rs]|k|] eqn:R; try congruence. intros _.
    split; [reflexivity|]. split; [cbn; lia|]. exists w1, sg, w2, sg2, rs. split; [reflexivity|]. split; [exact R|]. right.
    destruct (segment_sync w2 sg2) as [w3 r]. exists w3, r. split; reflexivity. }
  split; [apply G; vm_compute; discriminate|]. split; [apply G; vm_compute; discriminate|].
  split; [vm_compute; split; [repeat constructor|reflexivity]|]. split; [vm_compute; split; [repeat constructor|reflexivity]|].
  split; [vm_compute; reflexivity|]. split; vm_compute; discriminate.
Qed.
Print Assumptions C80_same_segment_refuted.

(** Two files written through two open files, in turns. *)
Example C80_witness :
  let log := [FCreate [1]; FAppend [1] [10; 11]; FCreate [2]; FAppend [2] [20]; FAppend [1] [12]; FSync [1]; FCreate [2]; FAppend [2] [21; 22]]%N in
  let hs (f : path) := length f + N.to_nat (hd 0%N f) in
  created_first [] log /\ tell_apart hs (map event_path log)
  /\ dk_files (disk_after (no_handles (fun _ => None)) (map (through hs) log)) [1%N] = Some [10; 11; 12]%N
  /\ dk_files (disk_after (no_handles (fun _ => None)) (map (through hs) log)) [2%N] = Some [21; 22]%N
  /\ dk_files (disk_after (no_handles (fun _ => None)) [HCreate 0 [1%N]; HWrite 0 [1; 2; 3]%N; HCreate 1 [1%N]; HWrite 0 [4; 5]%N; HWrite 1 [6]%N; HWrite 1 [7; 8; 9]%N]) [1%N]
     = Some [6; 7; 8; 9; 5]%N.
Proof.
  cbv zeta. split; [cbn; tauto|]. split; [|vm_compute; repeat split].
  intros f g Hf Hg. cbn [map event_path In] in Hf, Hg.
  repeat (destruct Hf as [<-|Hf] || destruct Hf); repeat (destruct Hg as [<-|Hg] || destruct Hg); intros E; vm_compute in E; first [reflexivity|discriminate E].
Qed.
