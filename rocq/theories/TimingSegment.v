(** The segment writer as a program that uses two block writers, 0 for the index
    file and 1 for the data file. *)
From Verif Require Import Base PrimEnc Util Buffers Sink BinEnc Io SpecIo Metadata Proto Names Segment SpecSegment TreeProofs Timing.
Open Scope nat_scope.

(** The rest of the state of a segment writer: the positions of its writers, its
    block index and metadata.
    src/store/segment_writer.rs:133-138. *)
Record seg_state := mkss { ss_dpos : N; ss_ipos : N; ss_index : block_index; ss_meta : metadata }.

(** A call of a function of a writer, which moves its position.
    src/store/io/default_block_writer.rs:37-40. *)
Definition index_block_call {A} (b : list N) (s : seg_state) (next : seg_state -> result unit -> client A) : client A :=
  Use 0 (FDo (WBlock b)) (next (mkss (ss_dpos s) (ss_ipos s + N.of_nat (length b)) (ss_index s) (ss_meta s))).

(** The same for the data file.
    src/store/io/default_block_writer.rs:37-40. *)
Definition data_block_call {A} (b : list N) (s : seg_state) (next : seg_state -> result unit -> client A) : client A :=
  Use 1 (FDo (WBlock b)) (next (mkss (ss_dpos s + N.of_nat (length b)) (ss_ipos s) (ss_index s) (ss_meta s))).

(** Blocks offered to the sink of the segment.
    src/store/block_sink.rs:41-45. *)
Fixpoint tree_client {A B} (t : tree A) (s : seg_state) (next : seg_state -> A -> client (outcome B)) : client (outcome B) :=
  match t with
  | TDone a => next s a
  | TPanic k => Finish (Panic k)
  | TNoFuel => Finish NoFuel
  | TOffer row_id b go =>
      data_block_call b s (fun s r =>
        tree_client (go r)
          (match r with
           | Ok _ => mkss (ss_dpos s) (ss_ipos s) (index_block (ss_index s) row_id (ss_dpos s)) (ss_meta s)
           | Err => s
           end) next)
  end.

Section Program.
Variable p : profile.
Context {B : Type}.

(** As [bin_encode] and [bin_flush].
    src/store/encoding/raw/binary_enc.rs:124-162, snappy/snappy_enc.rs:31-34. *)
Definition bin_encode_tree (e : bin_encoder) (buf : bin_buf) : tree (bin_encoder * result unit) :=
  match e with
  | RawEnc e => tbind (encode_tree p (length (bb_offsets buf)) e buf) (fun er => TDone (RawEnc (fst er), snd er))
  | SnappyEnc => TOffer 43243%N snappy_data (fun r => TDone (SnappyEnc, r))
  end.

(** src/store/encoding/raw/binary_enc.rs:164-170, snappy/snappy_enc.rs:36-38. *)
Definition bin_flush_tree (e : bin_encoder) : tree (bin_encoder * result encoder_layout) :=
  match e with
  | RawEnc e => tbind (flush_tree p e) (fun er => TDone (RawEnc (fst er), match snd er with Ok _ => Ok EPlain | Err => Err end))
  | SnappyEnc => TDone (SnappyEnc, Ok ESnappy)
  end.

(** segment_writer.rs:287-325: the metadata with a closed column. *)
Definition meta_closed (ci : column_info) (layout : encoder_layout) (bi : block_index) (meta : metadata) : option metadata :=
  match md_segment_meta meta with
  | None => None
  | Some sm =>
      Some (mkmeta (Some (mksmeta (sm_segment_id sm) (sm_database_name sm) (sm_table_name sm) (sm_shard_id sm)
                                  (sm_compressed_size sm) (sm_uncompressed_size sm) (sm_num_rows sm)
                                  (hm_insert (ci_name ci) (column_meta_of ci) (sm_columns_meta sm))))
                   (hm_insert (ci_name ci) (mkclayout (Some (bi_flush bi)) None (Some layout)) (md_columns_layout meta)))
  end.

(** As [column_run].
    src/store/segment_writer.rs:270-278, 281-328. *)
Fixpoint column_client (cw : column_writer) (ops : list col_op) (s : seg_state)
  (next : seg_state -> list (result unit) -> client (outcome B)) : client (outcome B) :=
  match ops with
  | [] => next s []
  | CWrite b :: rest =>
      tree_client (bin_encode_tree (cw_encoder cw) b) s (fun s er =>
        column_client (mkcw (cw_info cw) (fst er)) rest s (fun s more => next s (snd er :: more)))
  | CClose :: rest =>
      tree_client (bin_flush_tree (cw_encoder cw)) s (fun s er =>
        let cw := mkcw (cw_info cw) (fst er) in
        match snd er with
        | Err => column_client cw rest s (fun s more => next s (Err :: more))
        | Ok layout =>
            match meta_closed (cw_info cw) layout (ss_index s) (ss_meta s) with
            | None => Finish (Panic PExpect)
            | Some meta =>
                column_client cw rest (mkss (ss_dpos s) (ss_ipos s) (ss_index s) meta) (fun s more => next s (Ok tt :: more))
            end
        end)
  end.

(** As [segment_close].
    src/store/segment_writer.rs:221-243. *)
Definition close_client (it : iteration) (s : seg_state) (next : seg_state -> result unit -> client (outcome B)) : client (outcome B) :=
  let sm := match md_segment_meta (ss_meta s) with
            | None => None
            | Some sm => Some (mksmeta (sm_segment_id sm) (sm_database_name sm) (sm_table_name sm) (sm_shard_id sm)
                                       (sm_compressed_size sm) (sm_uncompressed_size sm) (sm_num_rows sm)
                                       (it_columns it (sm_columns_meta sm)))
            end in
  let metadata_pos := ss_ipos s in
  index_block_call (encode_metadata (mkmeta sm (it_layouts it (md_columns_layout (ss_meta s))))) s (fun s r =>
    match r with
    | Err => next s Err
    | Ok _ =>
        index_block_call (le_bytes 8 metadata_pos) s (fun s r =>
          match r with
          | Err => next s Err
          | Ok _ => Use 0 (FDo WFlush) (fun r => match r with Err => next s Err | Ok _ => Use 1 (FDo WFlush) (next s) end)
          end)
    end).

(** As [seg_run].
    src/store/segment_writer.rs:199-243. *)
Fixpoint ops_client (ops : list seg_op) (s : seg_state) (next : seg_state -> list (result unit) -> client (outcome B))
  : client (outcome B) :=
  match ops with
  | [] => next s []
  | SColumn ci cops :: rest =>
      let s := mkss (ss_dpos s) (ss_ipos s) (bi_clear (ss_index s)) (ss_meta s) in
      match new_binary_encoder (ci_encoding ci) segment_block_size (ci_nullable ci) with
      | Err => ops_client rest s (fun s more => next s (Err :: more))
      | Ok e =>
          column_client (mkcw ci e) cops s (fun s reports =>
            ops_client rest s (fun s more => next s ((Ok tt :: reports) ++ more)))
      end
  | SClose it :: rest => close_client it s (fun s r => ops_client rest s (fun s more => next s (r :: more)))
  end.
End Program.

(** The functions of a segment writer called in turn: new, any operations, sync.
    [Err] if there is no writer, else all the reports.
    src/store/segment_writer.rs:144-255. *)
Definition segment_client (p : profile) (base : path) (info : segment_info) (ops : list seg_op)
  : client (outcome (result (list (result unit)))) :=
  Use 0 (FOpen (index_path base (si_segment_id info))) (fun r =>
    match r with
    | Err => Finish (Ret Err)
    | Ok _ =>
        Use 1 (FOpen (data_path base (si_segment_id info))) (fun r =>
          match r with
          | Err => Finish (Ret Err)
          | Ok _ =>
              let meta := mkmeta (Some (mksmeta (si_segment_id info) (si_database_name info) (si_table_name info)
                                                (si_shard_id info) 0 0 (si_num_rows info) [])) [] in
              index_block_call index_file_signature (mkss 0 0 bi_new meta) (fun s r =>
                match r with
                | Err => Finish (Ret Err)
                | Ok _ =>
                    data_block_call data_file_signature s (fun s r =>
                      match r with
                      | Err => Finish (Ret Err)
                      | Ok _ =>
                          ops_client p ops s (fun s reports =>
                            Use 0 (FDo WSync) (fun r =>
                              match r with
                              | Err => Finish (Ret (Ok (reports ++ [Err])))
                              | Ok _ => Use 1 (FDo WSync) (fun r => Finish (Ret (Ok (reports ++ [r]))))
                              end))
                      end)
                end)
          end)
    end).

(** The same with the functions of Segment.v.
    src/store/segment_writer.rs:144-255. *)
Definition segment_program (p : profile) (w : world) (base : path) (info : segment_info) (ops : list seg_op)
  : outcome (world * result (list (result unit))) :=
  match segment_new w base info with
  | (w, Err) => Ret (w, Err)
  | (w, Ok sg) =>
      let* x := seg_run p w sg ops in
      let '(w, sg, reports) := x in
      let '(w, r) := segment_sync w sg in Ret (w, Ok (reports ++ [r]))
  end.

(** * They do the same *)

(** The files are those of the segment. *)
Definition holds (fs : files) (w : world) (sg : segment) (s : seg_state) : Prop :=
  (fs_os fs = w /\ forall j, 1 < j -> fs_writer fs j = None) /\ fs_writer fs 0 = Some (sg_index sg) /\ fs_writer fs 1 = Some (sg_data sg)
  /\ s = mkss (wr_pos (sg_data sg)) (wr_pos (sg_index sg)) (sg_block_index sg) (sg_meta sg).

Lemma block_pos w wr b w1 wr1 r : writer_write_block w wr b = (w1, wr1, r) -> wr_pos wr1 = (wr_pos wr + N.of_nat (length b))%N.
Proof. unfold writer_write_block. destruct (tk_write_all _ _ _ _) as [[w2 f] r2]. intros E. injection E as <- <- <-. reflexivity. Qed.

Lemma flush_pos w wr w1 wr1 r : writer_flush w wr = (w1, wr1, r) -> wr_pos wr1 = wr_pos wr.
Proof. unfold writer_flush. destruct (tk_flush _ _) as [[w2 f] r2]. intros E. injection E as <- <- <-. reflexivity. Qed.

Lemma call_do fs i o wr w wr1 r : fs_writer fs i = Some wr -> writer_step (fs_os fs) wr o = (w, wr1, r) ->
  call_file fs i (FDo o) = Some (mkfiles w (set_at (fs_writer fs) i wr1) (fs_names fs), r).
Proof. intros H E. unfold call_file. rewrite H, E. reflexivity. Qed.

(** The rest of the run: of the program, and of the segment writer. *)
Definition goes_on {A B} (fs : files) (c : client (outcome B)) (m : outcome A) (k : files -> A -> client (outcome B) -> Prop) : Prop :=
  match m with
  | Ret a => exists fs1 c1, run_client c fs = run_client c1 fs1 /\ k fs1 a c1
  | Panic x => exists fs1, run_client c fs = Some (fs1, Panic x)
  | NoFuel => exists fs1, run_client c fs = Some (fs1, NoFuel)
  end.

Lemma others {A} (g : nat -> option A) i x : i < 2 -> (forall j, 1 < j -> g j = None) -> forall j, 1 < j -> set_at g i x j = None.
Proof. intros L H j J. unfold set_at. destruct (Nat.eqb_spec j i); [lia|auto]. Qed.

Lemma index_call {B} fs w sg s b (next : seg_state -> result unit -> client B) w1 ix r : holds fs w sg s -> writer_write_block w (sg_index sg) b = (w1, ix, r) ->
  exists fs1 s1, run_client (index_block_call b s next) fs = run_client (next s1 r) fs1 /\ holds fs1 w1 (mksegment (sg_data sg) ix (sg_block_index sg) (sg_meta sg)) s1.
Proof.
  intros (H1 & H2 & H3 & ->) E. unfold index_block_call. cbn [run_client]. rewrite (call_do fs 0 (WBlock b) _ w1 ix r H2); [|cbn [writer_step]; rewrite (proj1 H1); exact E].
  eexists. eexists. split; [reflexivity|]. split; [split; [reflexivity|apply others; [lia|apply H1]]|]. split; [reflexivity|]. split; [exact H3|]. cbn [sg_data sg_index sg_block_index sg_meta ss_dpos ss_ipos ss_index ss_meta].
  rewrite (block_pos _ _ _ _ _ _ E). reflexivity.
Qed.

Lemma data_call {B} fs w sg s b (next : seg_state -> result unit -> client B) w1 dt r : holds fs w sg s -> writer_write_block w (sg_data sg) b = (w1, dt, r) ->
  exists fs1 s1, run_client (data_block_call b s next) fs = run_client (next s1 r) fs1 /\ holds fs1 w1 (mksegment dt (sg_index sg) (sg_block_index sg) (sg_meta sg)) s1.
Proof.
  intros (H1 & H2 & H3 & ->) E. unfold data_block_call. cbn [run_client]. rewrite (call_do fs 1 (WBlock b) _ w1 dt r H3); [|cbn [writer_step]; rewrite (proj1 H1); exact E].
  eexists. eexists. split; [reflexivity|]. split; [split; [reflexivity|apply others; [lia|apply H1]]|]. split; [exact H2|]. split; [reflexivity|]. cbn [sg_data sg_index sg_block_index sg_meta ss_dpos ss_ipos ss_index ss_meta].
  rewrite (block_pos _ _ _ _ _ _ E). reflexivity.
Qed.

Lemma tree_runs {A B} (t : tree A) : forall fs w sg s (next : seg_state -> A -> client (outcome B)), holds fs w sg s ->
  goes_on fs (tree_client t s next) (interp sink_write t (w, sg_data sg, sg_block_index sg))
    (fun fs1 x c1 => let '(a, (w1, dt, bi)) := x in exists s1, c1 = next s1 a /\ holds fs1 w1 (mksegment dt (sg_index sg) bi (sg_meta sg)) s1).
Proof.
  induction t as [a|k| |r b go IH]; intros fs w sg s next H; cbn [tree_client interp].
  - exists fs, (next s a). split; [reflexivity|]. exists s. split; [reflexivity|]. destruct sg. exact H.
  - exists fs. reflexivity.
  - exists fs. reflexivity.
  - unfold sink_write at 2 3. destruct (writer_write_block w (sg_data sg) b) as [[w1 dt] res] eqn:E.
    match goal with |- context [data_block_call b s ?n] => destruct (data_call fs w sg s b n w1 dt res H E) as (fs1 & s1 & R & H1) end. unfold goes_on in *. rewrite R. clear R.
    destruct res as [u|]; cbn [fst snd].
    + destruct u. destruct H1 as (K1 & K2 & K3 & ->). cbn [sg_data sg_index sg_block_index sg_meta ss_dpos ss_ipos ss_index ss_meta] in *.
      apply (IH (Ok tt) fs1 w1 (mksegment dt (sg_index sg) (index_block (sg_block_index sg) r (writer_pos dt)) (sg_meta sg))).
      split; [exact K1|]. split; [exact K2|]. split; [exact K3|]. reflexivity.
    + apply (IH Err fs1 w1 (mksegment dt (sg_index sg) (sg_block_index sg) (sg_meta sg)) s1 next H1).
Qed.

Lemma bin_encode_runs p {S} (wr : sink_fn S) e buf s : bin_encode wr p e buf s = runs wr (bin_encode_tree p e buf) s.
Proof.
  destruct e as [e|]; cbn [bin_encode bin_encode_tree]; [|reflexivity]. rewrite encode_runs, runs_bind. apply bind_ext. intros [[e1 s1] r]. reflexivity.
Qed.

Lemma bin_flush_runs p {S} (wr : sink_fn S) e s : bin_flush wr p e s = runs wr (bin_flush_tree p e) s.
Proof.
  destruct e as [e|]; cbn [bin_flush bin_flush_tree]; [|reflexivity]. rewrite flush_runs, runs_bind. apply bind_ext. intros [[e1 s1] r]. reflexivity.
Qed.

Section Same.
Variable p : profile.
Context {B : Type}.

(** [goes_on] up to a continuation *)
Definition reaches (fs : files) (c : client (outcome B)) (m : outcome (world * segment * list (result unit))) (next : seg_state -> list (result unit) -> client (outcome B)) : Prop :=
  goes_on fs c m (fun fs1 x c1 => let '(w1, sg1, rs) := x in exists s1, c1 = next s1 rs /\ holds fs1 w1 sg1 s1).

Lemma goes_on_step {A A'} fs (c : client (outcome B)) fs0 c0 (m : outcome A) (m0 : outcome A') k k0 : run_client c fs = run_client c0 fs0 ->
  goes_on fs0 c0 m0 k0 ->
  (match m0 with Ret a => forall fs1 c1, k0 fs1 a c1 -> goes_on fs1 c1 m k | Panic x => m = Panic x | NoFuel => m = NoFuel end) -> goes_on fs c m k.
Proof.
  intros E G T. destruct m0 as [a|x|]; cbn [goes_on] in G.
  - destruct G as (fs1 & c1 & E1 & K). specialize (T _ _ K). destruct m as [a1|x|]; cbn [goes_on] in *.
    + destruct T as (fs2 & c2 & E2 & K2). exists fs2, c2. split; [congruence|exact K2].
    + destruct T as (fs2 & E2). exists fs2. congruence.
    + destruct T as (fs2 & E2). exists fs2. congruence.
  - subst m. destruct G as (fs1 & E1). exists fs1. congruence.
  - subst m. destruct G as (fs1 & E1). exists fs1. congruence.
Qed.

Lemma column_reaches ops : forall fs w sg s cw next, holds fs w sg s ->
  reaches fs (column_client p cw ops s next) (column_run p w sg cw ops) next.
Proof.
  induction ops as [|o ops IH]; intros fs w sg s cw next H; cbn [column_client column_run].
  - exists fs, (next s []). split; [reflexivity|]. exists s. auto.
  - destruct o as [b|]; cbn [column_step].
    + unfold column_write. rewrite bin_encode_runs. unfold runs.
      eapply (goes_on_step fs _ fs); [reflexivity|apply (tree_runs _ fs w sg s _ H)|].
      destruct (interp sink_write (bin_encode_tree p (cw_encoder cw) b) (w, sg_data sg, sg_block_index sg)) as [[[e r] [[w1 dt] bi]]|k|]; [|reflexivity|reflexivity].
      cbn [bind fst snd]. intros fs1 c1 (s1 & -> & H1). 
      eapply (goes_on_step fs1 _ fs1); [reflexivity|apply (IH fs1 w1 _ s1 _ _ H1)|]. cbn [fst snd].
      destruct (column_run p w1 _ _ ops) as [[[w2 sg2] more]|k|]; [|reflexivity|reflexivity].
      intros fs2 c2 (s2 & -> & H2). cbn [bind]. eexists. eexists. split; [reflexivity|]. exists s2. auto.
    + unfold column_close. rewrite bin_flush_runs. unfold runs.
      eapply (goes_on_step fs _ fs); [reflexivity|apply (tree_runs _ fs w sg s _ H)|].
      destruct (interp sink_write (bin_flush_tree p (cw_encoder cw)) (w, sg_data sg, sg_block_index sg)) as [[[e r] [[w1 dt] bi]]|k|]; [|reflexivity|reflexivity].
      cbn [bind fst snd]. intros fs1 c1 (s1 & -> & H1). destruct r as [layout|].
      * cbn [cw_info]. assert (SI : ss_index s1 = bi /\ ss_meta s1 = sg_meta sg /\ ss_dpos s1 = wr_pos dt /\ ss_ipos s1 = wr_pos (sg_index sg)).
        { destruct H1 as (_ & _ & _ & ->). auto. }
        destruct SI as (-> & -> & -> & ->). unfold meta_closed. destruct (md_segment_meta (sg_meta sg)) as [sm|]; [|cbn [bind]; eexists; reflexivity]. cbn [bind].
        match goal with |- context [column_run p w1 ?sg1 ?cw1 ops] => eapply (goes_on_step fs1 _ fs1); [reflexivity|apply (IH fs1 w1 sg1 _ cw1)|destruct (column_run p w1 sg1 cw1 ops) as [[[w2 sg2] more]|k|]; [|reflexivity|reflexivity]] end.
        { destruct H1 as (K1 & K2 & K3 & _). split; [exact K1|]. split; [exact K2|]. split; [exact K3|]. reflexivity. }
        intros fs2 c2 (s2 & -> & H2). cbn [bind]. eexists. eexists. split; [reflexivity|]. exists s2. auto.
      * cbn [bind].
        match goal with |- context [column_run p w1 ?sg1 ?cw1 ops] => eapply (goes_on_step fs1 _ fs1); [reflexivity|apply (IH fs1 w1 sg1 _ cw1); exact H1|destruct (column_run p w1 sg1 cw1 ops) as [[[w2 sg2] more]|k|]; [|reflexivity|reflexivity]] end.
        intros fs2 c2 (s2 & -> & H2). cbn [bind]. eexists. eexists. split; [reflexivity|]. exists s2. auto.
Qed.

Lemma close_reaches fs w sg s it (next : seg_state -> result unit -> client (outcome B)) w1 sg1 r : holds fs w sg s -> segment_close w sg it = (w1, sg1, r) ->
  exists fs1 s1, run_client (close_client it s next) fs = run_client (next s1 r) fs1 /\ holds fs1 w1 sg1 s1.
Proof.
  intros H E. unfold close_client. unfold segment_close in E.
  replace (ss_meta s) with (sg_meta sg) by (destruct H as (_ & _ & _ & ->); reflexivity).
  replace (ss_ipos s) with (writer_pos (sg_index sg)) by (destruct H as (_ & _ & _ & ->); reflexivity).
  match type of E with context [writer_write_block w (sg_index sg) ?b] => set (mb := b) in * end. cbn zeta in *.
  match goal with |- context [index_block_call mb s ?n] => set (nx := n) end.
  destruct (writer_write_block w (sg_index sg) mb) as [[w2 ix2] r2] eqn:E2.
  destruct (index_call fs w sg s mb nx w2 ix2 r2 H E2) as (fs2 & s2 & R2 & H2). rewrite R2. subst nx. destruct r2 as [u|]; [|injection E as <- <- <-; exists fs2, s2; auto].
  destruct (writer_write_block w2 ix2 (le_bytes 8 (writer_pos (sg_index sg)))) as [[w3 ix3] r3] eqn:E3.
  match goal with |- context [index_block_call ?b s2 ?n] => destruct (index_call fs2 w2 _ s2 b n w3 ix3 r3 H2 E3) as (fs3 & s3 & R3 & H3) end. rewrite R3.
  destruct r3 as [u3|]; [|injection E as <- <- <-; exists fs3, s3; auto]. cbn [run_client].
  destruct H3 as (K1 & K2 & K3 & K4). cbn [sg_data sg_index sg_block_index sg_meta] in *.
  destruct (writer_flush w3 ix3) as [[w4 ix4] r4] eqn:E4. rewrite (call_do fs3 0 WFlush _ w4 ix4 r4 K2); [|cbn [writer_step]; rewrite (proj1 K1); exact E4].
  pose proof (flush_pos _ _ _ _ _ E4) as P4. destruct r4 as [u4|].
  - cbn [run_client]. destruct (writer_flush w4 (sg_data sg)) as [[w5 dt5] r5] eqn:E5. pose proof (flush_pos _ _ _ _ _ E5) as P5.
    erewrite (call_do _ 1 WFlush _ w5 dt5 r5); [|exact K3|exact E5]. injection E as <- <- <-. eexists. exists s3. split; [reflexivity|].
    split; [split; [reflexivity|apply others; [lia|apply others; [lia|apply K1]]]|]. split; [reflexivity|]. split; [reflexivity|]. cbn [sg_data sg_index sg_block_index sg_meta]. rewrite P4, P5. exact K4.
  - injection E as <- <- <-. eexists. exists s3. split; [reflexivity|]. split; [split; [reflexivity|apply others; [lia|apply K1]]|]. split; [reflexivity|]. split; [exact K3|]. cbn [sg_data sg_index sg_block_index sg_meta]. rewrite P4. exact K4.
Qed.

Lemma ops_reaches ops : forall fs w sg s next, holds fs w sg s -> reaches fs (ops_client p ops s next) (seg_run p w sg ops) next.
Proof.
  induction ops as [|o ops IH]; intros fs w sg s next H; cbn [ops_client seg_run].
  - exists fs, (next s []). split; [reflexivity|]. exists s. auto.
  - destruct o as [ci cops|it]; cbn [seg_step].
    + unfold new_binary_column_writer. set (sg0 := mksegment (sg_data sg) (sg_index sg) (bi_clear (sg_block_index sg)) (sg_meta sg)).
      assert (H0 : holds fs w sg0 (mkss (ss_dpos s) (ss_ipos s) (bi_clear (ss_index s)) (ss_meta s))).
      { destruct H as (K1 & K2 & K3 & ->). split; [exact K1|]. split; [exact K2|]. split; [exact K3|]. reflexivity. }
      destruct (new_binary_encoder (ci_encoding ci) segment_block_size (ci_nullable ci)) as [e|]; cbn [bind].
      * eapply (goes_on_step fs _ fs); [reflexivity|apply (column_reaches _ fs w sg0 _ _ _ H0)|].
        destruct (column_run p w sg0 (mkcw ci e) cops) as [[[w1 sg1] rs]|k|]; [|reflexivity|reflexivity]. intros fs1 c1 (s1 & -> & H1). cbn [bind].
        eapply (goes_on_step fs1 _ fs1); [reflexivity|apply (IH fs1 w1 sg1 s1 _ H1)|]. destruct (seg_run p w1 sg1 ops) as [[[w2 sg2] more]|k|]; [|reflexivity|reflexivity].
        intros fs2 c2 (s2 & -> & H2). cbn [bind]. eexists. eexists. split; [reflexivity|]. exists s2. auto.
      * eapply (goes_on_step fs _ fs); [reflexivity|apply (IH fs w sg0 _ _ H0)|]. destruct (seg_run p w sg0 ops) as [[[w2 sg2] more]|k|]; [|reflexivity|reflexivity].
        intros fs2 c2 (s2 & -> & H2). cbn [bind]. eexists. eexists. split; [reflexivity|]. exists s2. auto.
    + destruct (segment_close w sg it) as [[w1 sg1] r] eqn:E. cbn [bind].
      match goal with |- context [close_client it s ?n] => destruct (close_reaches fs w sg s it n w1 sg1 r H E) as (fs1 & s1 & R & H1) end.
      eapply (goes_on_step fs _ fs1); [exact R|apply (IH fs1 w1 sg1 s1 _ H1)|]. destruct (seg_run p w1 sg1 ops) as [[[w2 sg2] more]|k|]; [|reflexivity|reflexivity].
      intros fs2 c2 (s2 & -> & H2). cbn [bind]. eexists. eexists. split; [reflexivity|]. exists s2. auto.
Qed.
End Same.

Lemma goes_on_eq {A B} fs (c : client (outcome B)) fs0 c0 (m : outcome A) k : run_client c fs = run_client c0 fs0 -> goes_on fs0 c0 m k -> goes_on fs c m k.
Proof. intros E G. destruct m; cbn [goes_on] in *; rewrite E; exact G. Qed.

Lemma call_open fs i f w r : fs_writer fs i = None -> ~ In f (fs_names fs) -> writer_new (fs_os fs) f = (w, r) ->
  call_file fs i (FOpen f) = Some (match r with
    | Ok wr => (mkfiles w (set_at (fs_writer fs) i wr) (f :: fs_names fs), Ok tt)
    | Err => (mkfiles w (fs_writer fs) (f :: fs_names fs), Err)
    end).
Proof. intros H NI E. unfold call_file. rewrite H, E. destruct (in_dec _ _ _) as [I|_]; [contradiction|]. destruct r; reflexivity. Qed.

Lemma new_pos w f w1 wr : writer_new w f = (w1, Ok wr) -> wr_pos wr = 0%N.
Proof. unfold writer_new. destruct (tk_create w f) as [w2 [x|]]; intros E; [injection E as <- <-; reflexivity|discriminate E]. Qed.

Lemma sync_settled w wr w1 wr1 r : writer_sync w wr = (w1, wr1, r) -> tf_busy (wr_file wr1) = None \/ tf_err (wr_file wr1) = true.
Proof.
  unfold writer_sync, tk_sync_all, tk_flush, tk_wait. intros E. destruct (tf_err (wr_file wr)).
  - destruct (next_fate w) as [[k|] w2]; injection E as <- <- <-; auto.
  - destruct (tf_busy (wr_file wr)) as [ch|] eqn:EB.
    + destruct (tk_background w (tf_path (wr_file wr)) ch) as [w2 [u|]]; destruct (next_fate w2) as [[k|] w3]; injection E as <- <- <-; auto.
    + destruct (next_fate w) as [[k|] w3]; injection E as <- <- <-; auto.
Qed.

(** The segment writer and the program give the same reports and leave the same
    world; once synced, no write is in flight. *)
Lemma segment_client_goes p w base info ops : index_path base (si_segment_id info) <> data_path base (si_segment_id info) ->
  goes_on (no_files w) (segment_client p base info ops) (segment_program p w base info ops) (fun fs x c =>
    c = Finish (Ret (snd x)) /\ fs_os fs = fst x
    /\ (forall rs, snd x = Ok (rs ++ [Ok tt]) -> (forall i, 1 < i -> fs_writer fs i = None) /\ forall i t, fs_writer fs i = Some t -> tf_busy (wr_file t) = None \/ tf_err (wr_file t) = true)).
Proof.
  intros NE. unfold segment_program, segment_new, segment_client.
  set (fi := index_path base (si_segment_id info)) in *. set (fd := data_path base (si_segment_id info)) in *.
  destruct (writer_new w fi) as [w1 ri] eqn:EI. pose proof (call_open (no_files w) 0 fi w1 ri eq_refl (fun x => x) EI) as C1.
  assert (D : forall fs w (P : Prop), (forall rs : list (result unit), Err = Ok (rs ++ [Ok tt]) -> P) /\ True -> fs_os fs = w ->
    goes_on fs (Finish (Ret (Err : result (list (result unit))))) (Ret (w, Err)) (fun fs x c => c = Finish (Ret (snd x)) /\ fs_os fs = fst x
      /\ (forall rs, snd x = Ok (rs ++ [Ok tt]) -> (forall i, 1 < i -> fs_writer fs i = None) /\ forall i t, fs_writer fs i = Some t -> tf_busy (wr_file t) = None \/ tf_err (wr_file t) = true))).
  { intros fs w0 P _ E. exists fs. eexists. split; [reflexivity|]. split; [reflexivity|]. split; [exact E|]. intros rs X. discriminate X. }
  destruct ri as [ix|].
  2:{ eapply goes_on_eq; [cbn [run_client]; rewrite C1; reflexivity|]. apply (D _ _ True); [split; [discriminate|exact I]|reflexivity]. }
  destruct (writer_new w1 fd) as [w2 rd] eqn:ED.
  pose proof (call_open (mkfiles w1 (set_at (fs_writer (no_files w)) 0 ix) [fi]) 1 fd w2 rd eq_refl) as C2. cbn [fs_names fs_os] in C2. specialize (C2 (fun x => match x with or_introl e => NE e | or_intror f => f end) ED).
  destruct rd as [dt|].
  2:{ eapply goes_on_eq; [cbn [run_client]; rewrite C1; cbn [run_client no_files fs_names]; rewrite C2; reflexivity|]. apply (D _ _ True); [split; [discriminate|exact I]|reflexivity]. }
  eapply goes_on_eq; [cbn [run_client]; rewrite C1; cbn [run_client no_files fs_names]; rewrite C2; cbn zeta; reflexivity|].
  set (meta := mkmeta _ _). cbn [fs_writer]. 
  set (fs2 := mkfiles w2 _ _). unfold write_headers. cbn [sg_index sg_data sg_block_index sg_meta].
  assert (H2 : holds fs2 w2 (mksegment dt ix bi_new meta) (mkss 0 0 bi_new meta)).
  { split; [split; [reflexivity|apply others; [lia|apply others; [lia|reflexivity]]]|]. split; [reflexivity|]. split; [reflexivity|]. cbn [sg_data sg_index sg_block_index sg_meta].
    rewrite (new_pos _ _ _ _ EI), (new_pos _ _ _ _ ED). reflexivity. }
  clearbody fs2. clear C1 C2. destruct (writer_write_block w2 ix index_file_signature) as [[w3 ix3] r3] eqn:E3.
  match goal with |- context [index_block_call ?b ?s ?n] => destruct (index_call fs2 w2 _ s b n w3 ix3 r3 H2 E3) as (fs3 & s3 & R3 & H3) end.
  eapply goes_on_eq; [exact R3|]. clear R3. destruct r3 as [u|]; [|apply (D _ _ True); [split; [discriminate|exact I]|apply H3]].
  cbn [sg_index sg_data sg_block_index sg_meta] in H3. destruct (writer_write_block w3 dt data_file_signature) as [[w4 dt4] r4] eqn:E4.
  match goal with |- context [data_block_call ?b ?s ?n] => destruct (data_call fs3 w3 _ s b n w4 dt4 r4 H3 E4) as (fs4 & s4 & R4 & H4) end.
  eapply goes_on_eq; [exact R4|]. clear R4. destruct r4 as [u4|]; [|apply (D _ _ True); [split; [discriminate|exact I]|apply H4]].
  cbn [sg_index sg_data sg_block_index sg_meta] in H4. clear D H2 H3 E3 E4 EI ED.
  eapply (goes_on_step fs4 _ fs4); [reflexivity|apply (ops_reaches p ops fs4 w4 _ s4 _ H4)|].
  destruct (seg_run p w4 _ ops) as [[[w5 sg5] rs]|k|]; [|reflexivity|reflexivity]. cbn [bind]. intros fs5 c5 (s5 & -> & H5). destruct H5 as ((K1 & K0) & K2 & K3 & _).
  unfold segment_sync. destruct (writer_sync w5 (sg_index sg5)) as [[w6 ix6] r6] eqn:E6. pose proof (sync_settled _ _ _ _ _ E6) as S6. destruct r6 as [u6|].
  - destruct (writer_sync w6 (sg_data sg5)) as [[w7 dt7] r7] eqn:E7. pose proof (sync_settled _ _ _ _ _ E7) as S7.
    eexists. exists (Finish (Ret (Ok (rs ++ [r7])))). split; [cbn [run_client]; rewrite (call_do fs5 0 WSync _ w6 ix6 (Ok u6) K2); [|cbn [writer_step]; rewrite K1; exact E6]; cbn [run_client];
      erewrite (call_do _ 1 WSync _ w7 dt7 r7); [|exact K3|exact E7]; reflexivity|]. split; [reflexivity|]. split; [reflexivity|].
    intros _ _. split; [apply others; [lia|apply others; [lia|exact K0]]|]. intros i t HI. cbn [fs_writer] in HI. destruct i as [|[|i]]; [injection HI as <-; exact S6|injection HI as <-; exact S7|]. unfold set_at in HI. cbn in HI. rewrite K0 in HI; [discriminate HI|lia].
  - eexists. exists (Finish (Ret (Ok (rs ++ [Err])))). split; [cbn [run_client]; rewrite (call_do fs5 0 WSync _ w6 ix6 Err K2); [|cbn [writer_step]; rewrite K1; exact E6]; reflexivity|]. split; [reflexivity|]. split; [reflexivity|].
    intros rs' X. cbn [snd] in X. injection X as X. apply app_inj_tail in X. destruct X as [_ X]. discriminate X.
Qed.
