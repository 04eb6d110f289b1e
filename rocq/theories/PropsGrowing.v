(** Property C109, continued: the data file grows while a block is read from it
    (segment_writer.rs, io/unix_disk_block_reader.rs). *)
From Verif Require Import Base BaseProofs Buffers Sink PrimEnc BinEnc Io SpecIo IoProofs IoReadProofs PropsIo Metadata Proto SpecProto ProtoProofs ReadBlock BlockProofs Names PropsNames Segment SpecSegment
  SegmentProofs SegmentRunProofs PropsSegment PropsSegmentEx PropsSegmentRef PropsReadBack PropsTorn PropsIndexErr Cancel PropsCancel PropsCancelCol Caught PropsCaughtSeg PropsCaughtTorn PropsEarly.
Open Scope nat_scope.

(** * Reading a file that changes *)

(** [read_exact_at] of Io.v, where the [k]-th [pread] finds [file k].
    Called at src/store/io/unix_disk_block_reader.rs:67. *)
Fixpoint read_changing_at (fuel : nat) (file : nat -> list N) (k : nat) (plan : list pread_event)
    (want off : N) (acc : list N) : outcome (result (list N)) :=
  if (want =? 0)%N then Ret (Ok acc)
  else
    match fuel with
    | O => NoFuel
    | S fuel' =>
        if (9223372036854775808 <=? off)%N then Ret Err
        else
          let avail := if (N.of_nat (length (file k)) <=? off)%N then []
                       else skipn (N.to_nat off) (file k) in
          let most := N.to_nat (N.min want (N.of_nat (length avail))) in
          let got n rest :=
            if n =? 0 then Ret Err
            else read_changing_at fuel' file (S k) rest (want - N.of_nat n)%N (off + N.of_nat n)%N
                   (acc ++ firstn n avail) in
          match plan with
          | [] => got most []
          | PInterrupted :: rest => read_changing_at fuel' file (S k) rest want off acc
          | PFail :: _ => Ret Err
          | PShort j :: rest => got (Nat.min most (Nat.max 1 j)) rest
          end
    end.

(** [read_block] of Io.v on such a file, src/store/io/unix_disk_block_reader.rs:62-71. *)
Definition read_block_changing (p : profile) (file : nat -> list N) (plan : list pread_event)
    (range_start range_end : N) : outcome (result (list N)) :=
  asyncify
    (let* buf_len := sub64 p range_end range_start in
     if (9223372036854775808 <=? buf_len)%N then Panic PExplicit
     else read_changing_at (length plan + N.to_nat buf_len + 1) file 0 plan buf_len range_start []).

(** ** It is the same function if the file does not change *)

Lemma changing_same file : forall fuel k plan want off acc,
  read_changing_at fuel (fun _ => file) k plan want off acc = read_exact_at fuel file plan want off acc.
Proof.
  induction fuel as [|fuel IH]; intros k plan want off acc; [reflexivity|].
  cbn [read_changing_at read_exact_at]. destruct (want =? 0)%N; [reflexivity|]. destruct (9223372036854775808 <=? off)%N; [reflexivity|].
  cbv zeta. destruct plan as [|[| |j] plan]; [|apply IH|reflexivity|]; (destruct (_ =? 0); [reflexivity|apply IH]).
Qed.

Lemma changing_ends file : forall fuel k plan want off acc, length plan + N.to_nat want < fuel -> exists r, read_changing_at fuel file k plan want off acc = Ret r.
Proof.
  induction fuel as [|fuel IH]; intros k plan want off acc F; [lia|].
  cbn [read_changing_at]. destruct (N.eqb_spec want 0) as [_|NZ]; [eexists; reflexivity|]. destruct (9223372036854775808 <=? off)%N; [eexists; reflexivity|].
  cbv zeta. set (avail := if (N.of_nat (length (file k)) <=? off)%N then [] else skipn (N.to_nat off) (file k)). clearbody avail.
  destruct plan as [|[| |j] plan]; cbn [length] in F.
  - destruct (Nat.eqb_spec (N.to_nat (N.min want (N.of_nat (length avail)))) 0) as [_|P]; [eexists; reflexivity|]. apply IH. cbn [length]. lia.
  - apply IH. lia.
  - eexists; reflexivity.
  - destruct (Nat.eqb_spec (Nat.min (N.to_nat (N.min want (N.of_nat (length avail)))) (Nat.max 1 j)) 0) as [_|P]; [eexists; reflexivity|]. apply IH. lia.
Qed.

Lemma exact_more file : forall fuel more plan want off acc r, read_exact_at fuel file plan want off acc = Ret r -> read_exact_at (fuel + more) file plan want off acc = Ret r.
Proof.
  induction fuel as [|fuel IH]; intros more plan want off acc r E.
  - cbn [read_exact_at] in E. destruct (want =? 0)%N eqn:Z; [|discriminate E]. destruct more; cbn [read_exact_at Nat.add]; rewrite Z; exact E.
  - cbn [read_exact_at Nat.add] in E |- *. destruct (want =? 0)%N; [exact E|]. destruct (9223372036854775808 <=? off)%N; [exact E|].
    cbv zeta in E |- *. destruct plan as [|[| |j] plan]; [|exact (IH _ _ _ _ _ _ E)|exact E|]; (destruct (_ =? 0); [exact E|exact (IH _ _ _ _ _ _ E)]).
Qed.

Lemma changing_constant p file plan s e : file_ok file -> read_block_changing p (fun _ => file) plan s e = read_block p file plan s e.
Proof.
  intros FO. unfold read_block_changing, read_block. f_equal. destruct (sub64 p e s) as [n| |]; [|reflexivity..]. cbn [bind].
  destruct (9223372036854775808 <=? n)%N; [reflexivity|].
  destruct (changing_ends (fun _ => file) (length plan + N.to_nat n + 1) 0 plan n s [] ltac:(lia)) as (r1 & E1). rewrite E1. rewrite changing_same in E1.
  destruct (read_exact_at_spec (length plan + length file + 1) file plan n s [] ltac:(lia) FO) as (r2 & E2 & _). rewrite E2.
  pose proof (exact_more _ _ (length plan + length file + 1) _ _ _ _ _ E1) as A. pose proof (exact_more _ _ (length plan + N.to_nat n + 1) _ _ _ _ _ E2) as B.
  rewrite (Nat.add_comm (length plan + length file + 1)) in B. rewrite A in B. exact B.
Qed.

(** ** Reading where a block is going to be *)

Lemma firstn_piece (n m : nat) (l : list N) : n <= m -> firstn n l ++ firstn (m - n) (skipn n l) = firstn m l.
Proof.
  revert m l. induction n as [|n IH]; intros m l L; [cbn; rewrite Nat.sub_0_r; reflexivity|]. destruct m as [|m]; [lia|]. destruct l as [|x l]; [rewrite skipn_nil, !firstn_nil; reflexivity|].
  cbn [firstn skipn app Nat.sub]. rewrite IH by lia. reflexivity.
Qed.

Lemma skipn_skipn_N (n m : nat) (l : list N) : skipn n (skipn m l) = skipn (m + n) l.
Proof. revert l. induction m as [|m IH]; intros l; [reflexivity|]. destruct l as [|x l]; [cbn; apply skipn_nil|]. cbn [skipn Nat.add]. apply IH. Qed.

Lemma changing_prefix (file : nat -> list N) (all : list N) : (forall k, exists more, all = file k ++ more) -> forall fuel k plan want off acc,
  length plan + N.to_nat want < fuel -> (off + want <= N.of_nat (length all))%N ->
  read_changing_at fuel file k plan want off acc = Ret (Ok (acc ++ firstn (N.to_nat want) (skipn (N.to_nat off) all))) \/ read_changing_at fuel file k plan want off acc = Ret Err.
Proof.
  intros PR. induction fuel as [|fuel IH]; intros k plan want off acc F L; [lia|].
  cbn [read_changing_at]. destruct (N.eqb_spec want 0) as [->|NZ]; [left; cbn [N.to_nat firstn]; rewrite app_nil_r; reflexivity|].
  destruct (9223372036854775808 <=? off)%N; [right; reflexivity|].
  cbv zeta. set (avail := if (N.of_nat (length (file k)) <=? off)%N then [] else skipn (N.to_nat off) (file k)).
  assert (AV : forall n, n <= length avail -> firstn n avail = firstn n (skipn (N.to_nat off) all)).
  { intros n LN. destruct (PR k) as (more & ->). subst avail. destruct (N.leb_spec (N.of_nat (length (file k))) off) as [_|LT].
    - destruct n; [reflexivity|cbn in LN; lia].
    - rewrite skipn_app. rewrite firstn_app. rewrite (proj2 (Nat.sub_0_le n (length (skipn (N.to_nat off) (file k)))) LN). cbn [firstn]. rewrite app_nil_r. reflexivity. }
  clearbody avail.
  assert (ST : forall n rest, n <> 0 -> n <= length avail -> n <= N.to_nat want -> length rest + N.to_nat (want - N.of_nat n) < fuel ->
    read_changing_at fuel file (S k) rest (want - N.of_nat n) (off + N.of_nat n) (acc ++ firstn n avail) = Ret (Ok (acc ++ firstn (N.to_nat want) (skipn (N.to_nat off) all)))
    \/ read_changing_at fuel file (S k) rest (want - N.of_nat n) (off + N.of_nat n) (acc ++ firstn n avail) = Ret Err).
  { intros n rest N0 NA NW FU. destruct (IH (S k) rest (want - N.of_nat n)%N (off + N.of_nat n)%N (acc ++ firstn n avail) FU ltac:(lia)) as [X|X]; [|right; exact X]. left. rewrite X.
    do 2 f_equal. rewrite <- app_assoc. f_equal. rewrite (AV n NA).
    replace (N.to_nat (off + N.of_nat n)) with (N.to_nat off + n) by lia. rewrite <- skipn_skipn_N. replace (N.to_nat (want - N.of_nat n)) with (N.to_nat want - n) by lia.
    apply firstn_piece. exact NW. }
  destruct plan as [|[| |j] plan]; cbn [length] in F.
  - destruct (Nat.eqb_spec (N.to_nat (N.min want (N.of_nat (length avail)))) 0) as [_|P]; [right; reflexivity|]. apply ST; [exact P|lia|lia|cbn [length]; lia].
  - apply IH; [lia|exact L].
  - right. reflexivity.
  - destruct (Nat.eqb_spec (Nat.min (N.to_nat (N.min want (N.of_nat (length avail)))) (Nat.max 1 j)) 0) as [_|P]; [right; reflexivity|]. apply ST; [exact P|lia|lia|lia].
Qed.

(** * A segment being written *)

(** What can be seen of the data file: the beginning of what it has at some moment,
    or, when the calls have returned, of that and the piece a background thread may be
    writing. *)
Definition visible (d : directory) (f : path) (w : world) (wr : writer) (seen : list N) : Prop :=
  (exists log rest unseen, wd_log w = log ++ rest /\ directory_after d log f = Some (seen ++ unseen))
  \/ (exists file unseen, directory_after d (wd_log w) f = Some file /\ file ++ match tf_busy (wr_file wr) with Some piece => piece | None => [] end = seen ++ unseen).

(** Every [pread] may find the file at another moment: the block or an error. *)
Theorem C109_never_other_growing : forall d p w base info w1 sg cols w2 sg2 outs (file : nat -> list N) before r b after q plan,
  0 < wd_max w -> is_id (si_segment_id info) -> wd_log w = [] -> d (data_path base (si_segment_id info)) = None ->
  segment_new w base info = (w1, Ok sg) -> caught_columns p w1 sg cols = (w2, sg2, outs) -> Forall none_reported outs ->
  (forall k, visible d (data_path base (si_segment_id info)) w2 (sg_data sg2) (file k)) ->
  blocks_of_columns p cols = before ++ (r, b) :: after -> (N.of_nat (13 + length (concat (map snd (blocks_of_columns p cols)))) < 9223372036854775808)%N ->
  let from := N.of_nat (13 + length (concat (map snd before))) in
  read_block_changing q file plan from (from + N.of_nat (length b))%N = Ret (Ok b) \/ read_block_changing q file plan from (from + N.of_nat (length b))%N = Ret Err.
Proof.
  intros d p w base info w1 sg cols w2 sg2 outs file before r b after q plan M ID L0 D0 NW R A VI EB SZ from.
  destruct (segment_new_ahead d w base info w1 sg M ID L0 NW) as (CR & AH & HM). set (fd := data_path base (si_segment_id info)) in *.
  pose proof (ahead_columns d p fd _ _ _ _ _ _ _ _ AH HM R A) as (_ & _ & _ & c & H & EQ & _). cbn [app] in EQ.
  destruct (caught_columns_touch d p fd _ _ _ _ _ _ (ahead_opened _ _ _ _ _ _ AH) R) as (X & _). destruct (extends_no_create _ fd _ _ X) as (m & LM & FM).
  set (all := data_file_signature ++ bytes_in (blocks_of_columns p cols)).
  assert (PR : forall k, exists more, all = file k ++ more).
  { intros k. subst all. rewrite <- EQ. destruct (VI k) as [(log & rest & unseen & LG & DS)|(content & unseen & DF & SE)].
    - assert (CR2 : created_at fd (log ++ rest)) by (rewrite <- LG, LM; apply created_at_app; assumption).
      unfold holds in H. rewrite LG in H. destruct (seen_before d fd log rest _ c D0 CR2 DS H) as (more & ->). exists (unseen ++ more ++ pending (wr_file (sg_data sg2))). rewrite <- !app_assoc. reflexivity.
    - unfold holds in H. rewrite DF in H. injection H as <-. exists unseen. exact SE. }
  assert (E : all = (data_file_signature ++ bytes_in before) ++ b ++ bytes_in after) by (subst all; rewrite EB, bytes_in_app; cbn [bytes_in map snd concat]; rewrite <- !app_assoc; reflexivity).
  assert (LP : length (data_file_signature ++ bytes_in before) = 13 + length (concat (map snd before))) by (rewrite app_length; reflexivity).
  assert (LA : length all = 13 + length (concat (map snd before)) + length b + length (bytes_in after)) by (rewrite E, !app_length; rewrite app_length in LP; rewrite LP; lia).
  assert (SA : N.of_nat (length all) = N.of_nat (13 + length (concat (map snd (blocks_of_columns p cols))))) by (subst all; rewrite app_length; reflexivity).
  assert (SB : firstn (length b) (skipn (N.to_nat from) all) = b).
  { unfold from. rewrite Nat2N.id, <- LP, E. rewrite skipn_app, skipn_all, Nat.sub_diag. cbn [skipn app]. rewrite firstn_app, firstn_all, Nat.sub_diag. cbn [firstn]. apply app_nil_r. }
  clearbody all. unfold read_block_changing, sub64, usub. assert (FB : (from + N.of_nat (length b) <= N.of_nat (length all))%N) by (rewrite LA; unfold from; clear; lia).
  rewrite (proj2 (N.leb_le from (from + N.of_nat (length b))) ltac:(lia)). cbn [bind]. replace (from + N.of_nat (length b) - from)%N with (N.of_nat (length b)) by lia.
  rewrite (proj2 (N.leb_gt 9223372036854775808 (N.of_nat (length b))) ltac:(lia)). rewrite Nat2N.id.
  destruct (changing_prefix file all PR (length plan + length b + 1) 0 plan (N.of_nat (length b)) from [] ltac:(rewrite Nat2N.id; lia) FB) as [Z|Z]; rewrite Z; [left|right; reflexivity].
  rewrite Nat2N.id, SB. reflexivity.
Qed.
Print Assumptions C109_never_other_growing.

(** The columns of [C109_witness].  The first [pread] finds a part of the first block,
    the second one all of it; if the file stays as it is, the answer is an error. *)
Definition growing (k : nat) : list N :=
  match early_run with
  | Some (_, log) =>
      match directory_after (fun _ => None) log (data_path ex_base (si_segment_id ex_info)) with
      | Some file => if k =? 0 then firstn 30 file else file
      | None => []
      end
  | None => []
  end.

Example C109_growing_witness :
  match segment_new ex_world ex_base ex_info with
  | (w1, Ok sg) => let '(w2, sg2, outs) := caught_columns Debug w1 sg ex_caught in forall k, visible (fun _ => None) (data_path ex_base (si_segment_id ex_info)) w2 (sg_data sg2) (growing k)
  | _ => False
  end
  /\ length (growing 0) = 30 /\ length (snd (nth 0 (blocks_of_columns Debug ex_caught) (0%N, []))) = 138
  /\ read_block_changing Debug growing [PInterrupted] 13 151 = Ret (Ok (snd (nth 0 (blocks_of_columns Debug ex_caught) (0%N, []))))
  /\ read_block_changing Debug growing [] 13 151 = Ret (Ok (snd (nth 0 (blocks_of_columns Debug ex_caught) (0%N, []))))
  /\ read_block_changing Debug (fun _ => growing 0) [] 13 151 = Ret Err.
Proof.
  split; [|split; [vm_compute; reflexivity|]; split; [vm_compute; reflexivity|]; split; [vm_compute; reflexivity|]; split; [vm_compute; reflexivity|]; vm_compute; reflexivity].
  assert (E : exists file, match early_run with Some (_, log) => directory_after (fun _ => None) log (data_path ex_base (si_segment_id ex_info)) | None => None end = Some file).
  { vm_compute. eexists. reflexivity. }
  unfold growing. destruct E as (file & E). unfold early_run in E |- *.
  destruct (segment_new ex_world ex_base ex_info) as [w1 [sg|]]; [|discriminate E]. destruct (caught_columns Debug w1 sg ex_caught) as [[w2 sg2] outs].
  rewrite E. intros k. left. exists (wd_log w2), []. destruct (k =? 0).
  - exists (skipn 30 file). rewrite app_nil_r, firstn_skipn. split; [reflexivity|exact E].
  - exists []. rewrite !app_nil_r. split; [reflexivity|exact E].
Qed.
