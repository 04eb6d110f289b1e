(** Property C76 when panics are caught: the moment at which background writes happen
    makes no difference (segment_writer.rs, io/default_block_writer.rs). *)
From Verif Require Import Base PrimEnc Util Buffers Sink BinEnc Io Cancel SpecIo Metadata Proto Names PropsNames Segment SpecSegment SegmentProofs PropsSegmentEx TreeProofs Caught PropsCaughtSeg PropsCaughtDespite
  PropsCrash Timing TimingProofs TimingSegment PropsTiming PropsTimingCrash.
Open Scope nat_scope.

(** * The program *)

(** A sink that takes so many blocks and then reports an error. *)
Definition takes : sink_fn nat := fun n _ _ => match n with 0 => (0, Err) | S m => (m, Ok tt) end.

(** A call of an encoder, given for every sink: its blocks are written one after the
    other, up to the first error.
    src/store/block_sink.rs:41-45. *)
Fixpoint offer_client {E A B} (run : forall T, sink_fn T -> T -> caught (E * T) (result A)) (blocks : list (N * list N)) (k : nat) (s : seg_state)
  (next : seg_state -> E -> outcome (result A) -> client B) : client B :=
  match blocks with
  | [] => next s (fst (fst (run _ collect []))) (snd (run _ collect []))
  | (row_id, b) :: rest =>
      data_block_call b s (fun s r =>
        match r with
        | Ok _ => offer_client run rest (S k) (mkss (ss_dpos s) (ss_ipos s) (index_block (ss_index s) row_id (ss_dpos s)) (ss_meta s)) next
        | Err => next s (fst (fst (run _ takes k))) (snd (run _ takes k))
        end)
  end.

(** All of them.
    src/store/block_sink.rs:41-45. *)
Definition call_client {E A B} (run : forall T, sink_fn T -> T -> caught (E * T) (result A)) (s : seg_state) (next : seg_state -> E -> outcome (result A) -> client B) : client B :=
  offer_client run (snd (fst (run _ collect []))) 0 s next.

Section Program.
Variable p : profile.
Context {B : Type}.

(** As [caught_run].
    src/store/segment_writer.rs:270-278, 281-328. *)
Fixpoint caught_column_client (cw : column_writer) (ops : list col_op) (s : seg_state)
  (next : seg_state -> list (outcome (result unit)) -> client (outcome B)) : client (outcome B) :=
  match ops with
  | [] => next s []
  | CWrite b :: rest =>
      call_client (fun T wr t => bin_encode_at wr p (cw_encoder cw) b t) s (fun s e o =>
        caught_column_client (mkcw (cw_info cw) e) rest s (fun s more => next s (o :: more)))
  | CClose :: rest =>
      call_client (fun T wr t => bin_flush_at wr p (cw_encoder cw) t) s (fun s e o =>
        let on s o := caught_column_client (mkcw (cw_info cw) e) rest s (fun s more => next s (o :: more)) in
        match o with
        | Ret (Ok layout) =>
            match meta_closed (cw_info cw) layout (ss_index s) (ss_meta s) with
            | None => on s (Panic PExpect)
            | Some meta => on (mkss (ss_dpos s) (ss_ipos s) (ss_index s) meta) (Ret (Ok tt))
            end
        | Ret Err => on s (Ret Err)
        | Panic k => on s (Panic k)
        | NoFuel => on s NoFuel
        end)
  end.

(** As [caught_seg].
    src/store/segment_writer.rs:199-243. *)
Fixpoint caught_ops_client (ops : list seg_op) (s : seg_state) (next : seg_state -> list (list (outcome (result unit))) -> client (outcome B)) : client (outcome B) :=
  match ops with
  | [] => next s []
  | SColumn ci cops :: rest =>
      let s := mkss (ss_dpos s) (ss_ipos s) (bi_clear (ss_index s)) (ss_meta s) in
      match new_binary_encoder (ci_encoding ci) segment_block_size (ci_nullable ci) with
      | Err => caught_ops_client rest s (fun s more => next s ([Ret Err] :: more))
      | Ok e => caught_column_client (mkcw ci e) cops s (fun s outs => caught_ops_client rest s (fun s more => next s (outs :: more)))
      end
  | SClose it :: rest => close_client it s (fun s r => caught_ops_client rest s (fun s more => next s ([Ret r] :: more)))
  end.
End Program.

(** As [segment_client], going on after panics: new, any operations, sync.
    src/store/segment_writer.rs:144-255. *)
Definition caught_client (p : profile) (base : path) (info : segment_info) (ops : list seg_op)
  : client (outcome (result (list (list (outcome (result unit))) * result unit))) :=
  Use 0 (FOpen (index_path base (si_segment_id info))) (fun r =>
    match r with
    | Err => Finish (Ret Err)
    | Ok _ =>
        Use 1 (FOpen (data_path base (si_segment_id info))) (fun r =>
          match r with
          | Err => Finish (Ret Err)
          | Ok _ =>
              let meta := mkmeta (Some (mksmeta (si_segment_id info) (si_database_name info) (si_table_name info)
                                                (si_shard_id info) 0 0 (si_num_rows info) [])) [] in
              index_block_call index_file_signature (mkss 0 0 bi_new meta) (fun s r =>
                match r with
                | Err => Finish (Ret Err)
                | Ok _ =>
                    data_block_call data_file_signature s (fun s r =>
                      match r with
                      | Err => Finish (Ret Err)
                      | Ok _ =>
                          caught_ops_client p ops s (fun s outs =>
                            Use 0 (FDo WSync) (fun r =>
                              match r with
                              | Err => Finish (Ret (Ok (outs, Err)))
                              | Ok _ => Use 1 (FDo WSync) (fun r => Finish (Ret (Ok (outs, r))))
                              end))
                      end)
                end)
          end)
    end).

(** The same with the functions of Segment.v and Caught.v.
    src/store/segment_writer.rs:144-255. *)
Definition caught_program (p : profile) (w : world) (base : path) (info : segment_info) (ops : list seg_op)
  : world * result (list (list (outcome (result unit))) * result unit) :=
  match segment_new w base info with
  | (w, Err) => (w, Err)
  | (w, Ok sg) =>
      let '(w, sg, outs) := caught_seg p w sg ops in
      let '(w, r) := segment_sync w sg in (w, Ok (outs, r))
  end.

(** * They do the same *)

Lemma takes_feed bl : forall n, feed takes (length bl + n) bl = (n, Ok tt).
Proof. induction bl as [|[r b] bl IH]; intros n; [reflexivity|]. cbn [feed length Nat.add takes]. apply IH. Qed.

Definition block_dec : forall x y : list (N * list N), {x = y} + {x <> y}.
Proof. apply list_eq_dec. intros [r b] [r' b']. destruct (N.eq_dec r r') as [->|]; [|right; congruence]. destruct (list_eq_dec N.eq_dec b b') as [->|]; [left; reflexivity|right; congruence]. Defined.

(** A sink that refuses one block after certain others. *)
Definition refuses (done : list (N * list N)) (last : N * list N) : sink_fn (list (N * list N)) :=
  fun acc r b => if block_dec (acc ++ [(r, b)]) (done ++ [last]) then (acc, Err) else (acc ++ [(r, b)], Ok tt).

Lemma refuses_feed done last l : forall acc, (exists l1 l2, l = l1 ++ last :: l2 /\ acc ++ l1 = done) \/ feed (refuses done last) acc l = (acc ++ l, Ok tt).
Proof.
  induction l as [|[r b] l IH]; intros acc; [right; cbn; rewrite app_nil_r; reflexivity|].
  cbn [feed]. unfold refuses at 1. destruct (block_dec (acc ++ [(r, b)]) (done ++ [last])) as [E|NE].
  - left. apply app_inj_tail in E. destruct E as [-> <-]. exists [], l. rewrite app_nil_r. auto.
  - destruct (IH (acc ++ [(r, b)])) as [(l1 & l2 & -> & E)|E].
    + left. exists ((r, b) :: l1), l2. split; [reflexivity|]. rewrite <- E, <- app_assoc. reflexivity.
    + right. rewrite E, <- app_assoc. reflexivity.
Qed.

Lemma refuses_done done last l : forall acc l2, done = acc ++ l ++ l2 -> feed (refuses done last) acc l = (acc ++ l, Ok tt).
Proof.
  induction l as [|[r b] l IH]; intros acc l2 D; [cbn; rewrite app_nil_r; reflexivity|]. cbn [feed]. unfold refuses at 1.
  destruct (block_dec (acc ++ [(r, b)]) (done ++ [last])) as [E|_].
  - exfalso. apply (f_equal (@length _)) in E. rewrite D in E. rewrite !app_length in E. cbn [length] in E. lia.
  - rewrite (IH (acc ++ [(r, b)]) l2); [rewrite <- app_assoc; reflexivity|]. rewrite D, <- app_assoc. reflexivity.
Qed.

(** What is offered before an error is the beginning of what is offered without. *)
Lemma sinkless_first {E A} (run : forall T, sink_fn T -> T -> caught (E * T) (result A)) : sinkless run ->
  forall T (wr : sink_fn T) t, exists done last, hands_at wr t done last (snd (fst (run T wr t))) (snd (run T wr t))
    /\ match last with
       | None => snd (fst (run _ collect [])) = done /\ fst (fst (run _ collect [])) = fst (fst (run T wr t)) /\ snd (run _ collect []) = snd (run T wr t)
       | Some x => (exists rest, snd (fst (run _ collect [])) = done ++ x :: rest) /\ fst (fst (run _ takes (length done))) = fst (fst (run T wr t)) /\ snd (run _ takes (length done)) = snd (run T wr t)
       end.
Proof.
  intros SL T wr t. destruct (SL T wr t) as (done & last & HH & G). exists done, last. split; [exact HH|]. destruct last as [[r b]|].
  - destruct HH as (t1 & F & L & O). split.
    + destruct (SL _ collect []) as (done' & last' & HC & GC).
      assert (LN : last' = None) by (destruct last' as [[r' b']|]; [destruct HC as (x & _ & X & _); discriminate X|reflexivity]). subst last'.
      destruct HC as (x & FC & EC & NC). rewrite collect_feed in FC. injection FC as <-. cbn [app] in EC. rewrite EC.
      destruct (refuses_feed done (r, b) done' []) as [(l1 & l2 & -> & E1)|E1]; [cbn [app] in E1; subst l1; exists l2; reflexivity|].
      exfalso. assert (R1 := GC _ (refuses done (r, b)) [] done' (ex_intro _ _ (conj E1 (conj eq_refl NC)))).
      assert (R2 : run _ (refuses done (r, b)) [] = ((fst (fst (run T wr t)), done), snd (run T wr t))).
      { apply G. exists done. split; [apply (refuses_done done (r, b) done [] []); rewrite app_nil_r; reflexivity|]. split; [|exact O]. unfold refuses. destruct (block_dec _ _) as [_|X]; [reflexivity|congruence]. }
      rewrite R1 in R2. injection R2 as _ _ X. congruence.
    + rewrite (G _ takes (length done) 0); [auto|]. exists 0. split; [pose proof (takes_feed done 0) as X; rewrite Nat.add_0_r in X; exact X|]. split; [reflexivity|exact O].
  - destruct HH as (t1 & F & L & O). rewrite (G _ collect [] done); [auto|]. exists done. split; [apply collect_feed|]. auto.
Qed.

Lemma data_offer {B} fs w sg s r b (next : seg_state -> result unit -> client B) w1 dt bi res : holds fs w sg s -> sink_write (w, sg_data sg, sg_block_index sg) r b = ((w1, dt, bi), res) ->
  exists fs1 s1, run_client (data_block_call b s next) fs = run_client (next s1 res) fs1
    /\ holds fs1 w1 (mksegment dt (sg_index sg) bi (sg_meta sg)) (match res with Ok _ => mkss (ss_dpos s1) (ss_ipos s1) (index_block (ss_index s1) r (ss_dpos s1)) (ss_meta s1) | Err => s1 end).
Proof.
  intros H E. unfold sink_write in E. destruct (writer_write_block w (sg_data sg) b) as [[w2 d2] r2] eqn:W. destruct (data_call fs w sg s b next w2 d2 r2 H W) as (fs1 & s1 & R & H1).
  exists fs1, s1. destruct r2 as [[]|]; injection E as <- <- <- <-; (split; [exact R|]); [|exact H1].
  destruct H1 as (K1 & K2 & K3 & ->). split; [exact K1|]. split; [exact K2|]. split; [exact K3|]. reflexivity.
Qed.

Lemma offers_all {E A B} (run : forall T, sink_fn T -> T -> caught (E * T) (result A)) (next : seg_state -> E -> outcome (result A) -> client B) done : forall more k fs w sg s w1 dt bi, holds fs w sg s ->
  feed sink_write (w, sg_data sg, sg_block_index sg) done = ((w1, dt, bi), Ok tt) ->
  exists fs1 s1, run_client (offer_client run (done ++ more) k s next) fs = run_client (offer_client run more (length done + k) s1 next) fs1 /\ holds fs1 w1 (mksegment dt (sg_index sg) bi (sg_meta sg)) s1.
Proof.
  induction done as [|[r b] done IH]; intros more k fs w sg s w1 dt bi H F; cbn [feed] in F.
  - injection F as <- <- <-. exists fs, s. split; [reflexivity|]. destruct sg. exact H.
  - destruct (sink_write (w, sg_data sg, sg_block_index sg) r b) as [[[w2 d2] b2] [[]|]] eqn:SW; [|discriminate F]. cbn [app offer_client].
    match goal with |- context [data_block_call b s ?n] => destruct (data_offer fs w sg s r b n w2 d2 b2 (Ok tt) H SW) as (fs2 & s2 & R & H2) end. rewrite R.
    destruct (IH more (S k) fs2 w2 _ _ w1 dt bi H2 F) as (fs3 & s3 & R3 & H3). exists fs3, s3. split; [|exact H3]. rewrite R3. cbn [length]. rewrite Nat.add_succ_r. reflexivity.
Qed.

Lemma call_runs {E A B} (run : forall T, sink_fn T -> T -> caught (E * T) (result A)) (next : seg_state -> E -> outcome (result A) -> client B) fs w sg s e w1 dt bi o : sinkless run -> holds fs w sg s ->
  run _ sink_write (w, sg_data sg, sg_block_index sg) = ((e, (w1, dt, bi)), o) ->
  exists fs1 s1, run_client (call_client run s next) fs = run_client (next s1 e o) fs1 /\ holds fs1 w1 (mksegment dt (sg_index sg) bi (sg_meta sg)) s1.
Proof.
  intros SL H R. destruct (sinkless_first run SL _ sink_write (w, sg_data sg, sg_block_index sg)) as (done & last & HH & L). rewrite R in HH, L. cbn [fst snd] in HH, L.
  unfold call_client. destruct HH as ([[wa da] ba] & F & X). destruct last as [[r b]|].
  - destruct L as ((rest & ->) & E1 & E2). destruct X as [X _]. destruct (offers_all run next done ((r, b) :: rest) 0 fs w sg s wa da ba H F) as (fs1 & s1 & R1 & H1). rewrite R1. cbn [offer_client].
    match goal with |- context [data_block_call b s1 ?n] => destruct (data_offer fs1 wa _ s1 r b n w1 dt bi Err H1 X) as (fs2 & s2 & R2 & H2) end.
    exists fs2, s2. split; [|exact H2]. rewrite R2, Nat.add_0_r, E1, E2. reflexivity.
  - destruct L as (-> & E1 & E2). destruct X as [X _]. injection X as -> -> ->. destruct (offers_all run next done [] 0 fs w sg s wa da ba H F) as (fs1 & s1 & R1 & H1). rewrite app_nil_r in R1.
    exists fs1, s1. split; [|exact H1]. rewrite R1. cbn [offer_client]. rewrite E1, E2. reflexivity.
Qed.

Section Same.
Variable p : profile.
Context {B : Type}.

Lemma caught_column_reaches ops : forall fs w sg s cw (next : seg_state -> list (outcome (result unit)) -> client (outcome B)) w1 sg1 outs, holds fs w sg s -> caught_run p w sg cw ops = (w1, sg1, outs) ->
  exists fs1 s1, run_client (caught_column_client p cw ops s next) fs = run_client (next s1 outs) fs1 /\ holds fs1 w1 sg1 s1.
Proof.
  induction ops as [|op ops IH]; intros fs w sg s cw next w1 sg1 outs H R; cbn [caught_run caught_column_client] in *; [injection R as <- <- <-; exists fs, s; auto|].
  cbn zeta in R. destruct (caught_step p w sg cw op) as [[[w2 sg2] cw2] o] eqn:ST. cbn [fst snd] in R. destruct (caught_run p w2 sg2 cw2 ops) as [[w3 sg3] more] eqn:RR. injection R as <- <- <-.
  destruct op as [b|]; cbn [caught_step] in ST.
  - unfold column_write_at in ST. cbn zeta in ST. destruct (bin_encode_at sink_write p (cw_encoder cw) b _) as [[e [[wa da] ba]] r] eqn:EN. cbn [fst snd] in ST. injection ST as <- <- <- <-.
    match goal with |- context [call_client ?f s ?n] => destruct (call_runs f n fs w sg s e wa da ba r (bin_encode_sinkless p (cw_encoder cw) b) H EN) as (fs1 & s1 & R1 & H1) end.
    destruct (IH fs1 wa _ s1 _ (fun s more => next s (r :: more)) _ _ _ H1 RR) as (fs2 & s2 & R2 & H2). exists fs2, s2. split; [rewrite R1; exact R2|exact H2].
  - unfold column_close_at in ST. cbn zeta in ST. destruct (bin_flush_at sink_write p (cw_encoder cw) _) as [[e [[wa da] ba]] r] eqn:EN. cbn [fst snd] in ST.
    match goal with |- context [call_client ?f s ?n] => destruct (call_runs f n fs w sg s e wa da ba r (bin_flush_sinkless p (cw_encoder cw)) H EN) as (fs1 & s1 & R1 & H1) end.
    rewrite R1. clear R1. cbv zeta. destruct r as [[layout|]|k|]; cbn [pure] in ST.
    + assert (SI : ss_index s1 = ba /\ ss_meta s1 = sg_meta sg /\ ss_dpos s1 = wr_pos da /\ ss_ipos s1 = wr_pos (sg_index sg)) by (destruct H1 as (_ & _ & _ & ->); auto).
      destruct SI as (-> & -> & -> & ->). unfold meta_closed. destruct (md_segment_meta (sg_meta sg)) as [sm|]; injection ST as <- <- <- <-.
      * refine (IH fs1 wa _ _ _ (fun s more => next s (Ret (Ok tt) :: more)) _ _ _ _ RR). destruct H1 as (K1 & K2 & K3 & _). split; [exact K1|]. split; [exact K2|]. split; [exact K3|]. reflexivity.
      * exact (IH fs1 wa _ _ _ (fun s more => next s (Panic PExpect :: more)) _ _ _ H1 RR).
    + injection ST as <- <- <- <-. exact (IH fs1 wa _ _ _ (fun s more => next s (Ret Err :: more)) _ _ _ H1 RR).
    + injection ST as <- <- <- <-. exact (IH fs1 wa _ _ _ (fun s more => next s (Panic k :: more)) _ _ _ H1 RR).
    + injection ST as <- <- <- <-. exact (IH fs1 wa _ _ _ (fun s more => next s (NoFuel :: more)) _ _ _ H1 RR).
Qed.

Lemma caught_ops_reaches ops : forall fs w sg s (next : seg_state -> list (list (outcome (result unit))) -> client (outcome B)) w1 sg1 outs, holds fs w sg s -> caught_seg p w sg ops = (w1, sg1, outs) ->
  exists fs1 s1, run_client (caught_ops_client p ops s next) fs = run_client (next s1 outs) fs1 /\ holds fs1 w1 sg1 s1.
Proof.
  induction ops as [|op ops IH]; intros fs w sg s next w1 sg1 outs H R; cbn [caught_seg caught_ops_client] in *; [injection R as <- <- <-; exists fs, s; auto|].
  destruct op as [ci cops|it].
  - unfold caught_column, new_binary_column_writer in R. set (sg0 := mksegment (sg_data sg) (sg_index sg) (bi_clear (sg_block_index sg)) (sg_meta sg)) in *.
    assert (H0 : holds fs w sg0 (mkss (ss_dpos s) (ss_ipos s) (bi_clear (ss_index s)) (ss_meta s))).
    { destruct H as (K1 & K2 & K3 & ->). split; [exact K1|]. split; [exact K2|]. split; [exact K3|]. reflexivity. }
    destruct (new_binary_encoder (ci_encoding ci) segment_block_size (ci_nullable ci)) as [e|].
    + destruct (caught_run p w sg0 (mkcw ci e) cops) as [[wa sa] oa] eqn:RC. destruct (caught_seg p wa sa ops) as [[wb sb] more] eqn:RR. injection R as <- <- <-.
      match goal with |- context [caught_column_client p _ cops _ ?n] => destruct (caught_column_reaches cops fs w sg0 _ _ n _ _ _ H0 RC) as (fs1 & s1 & R1 & H1) end.
      destruct (IH fs1 wa sa s1 (fun s more => next s (oa :: more)) _ _ _ H1 RR) as (fs2 & s2 & R2 & H2). exists fs2, s2. split; [cbv zeta; rewrite R1; exact R2|exact H2].
    + destruct (caught_seg p w sg0 ops) as [[wb sb] more] eqn:RR. injection R as <- <- <-. exact (IH fs w sg0 _ (fun s more => next s ([Ret Err] :: more)) _ _ _ H0 RR).
  - destruct (segment_close w sg it) as [[wa sa] r] eqn:C. destruct (caught_seg p wa sa ops) as [[wb sb] more] eqn:RR. injection R as <- <- <-.
    match goal with |- context [close_client it s ?n] => destruct (close_reaches fs w sg s it n _ _ _ H C) as (fs1 & s1 & R1 & H1) end.
    destruct (IH fs1 wa sa s1 (fun s more => next s ([Ret r] :: more)) _ _ _ H1 RR) as (fs2 & s2 & R2 & H2). exists fs2, s2. split; [rewrite R1; exact R2|exact H2].
Qed.
End Same.

Lemma caught_client_runs p w base info ops : index_path base (si_segment_id info) <> data_path base (si_segment_id info) ->
  exists fs, run_client (caught_client p base info ops) (no_files w) = Some (fs, Ret (snd (caught_program p w base info ops))) /\ fs_os fs = fst (caught_program p w base info ops)
    /\ (forall outs, snd (caught_program p w base info ops) = Ok (outs, Ok tt) -> (forall i, 1 < i -> fs_writer fs i = None) /\ forall i t, fs_writer fs i = Some t -> tf_busy (wr_file t) = None \/ tf_err (wr_file t) = true).
Proof.
  intros NE. unfold caught_program, segment_new, caught_client.
  set (fi := index_path base (si_segment_id info)) in *. set (fd := data_path base (si_segment_id info)) in *.
  destruct (writer_new w fi) as [w1 ri] eqn:EI. pose proof (call_open (no_files w) 0 fi w1 ri eq_refl (fun x => x) EI) as C1.
  destruct ri as [ix|].
  2:{ eexists. split; [cbn [run_client]; rewrite C1; reflexivity|]. split; [reflexivity|]. intros outs X. discriminate X. }
  destruct (writer_new w1 fd) as [w2 rd] eqn:ED.
  pose proof (call_open (mkfiles w1 (set_at (fs_writer (no_files w)) 0 ix) [fi]) 1 fd w2 rd eq_refl) as C2. cbn [fs_names fs_os] in C2. specialize (C2 (fun x => match x with or_introl e => NE e | or_intror f => f end) ED).
  destruct rd as [dt|].
  2:{ eexists. split; [cbn [run_client]; rewrite C1; cbn [run_client no_files fs_names]; rewrite C2; reflexivity|]. split; [reflexivity|]. intros outs X. discriminate X. }
  cbn [run_client]. rewrite C1. cbn [run_client no_files fs_names]. rewrite C2. cbn zeta. cbn [fs_writer].
  set (meta := mkmeta _ _). set (fs2 := mkfiles w2 _ _). unfold write_headers. cbn [sg_index sg_data sg_block_index sg_meta].
  assert (H2 : holds fs2 w2 (mksegment dt ix bi_new meta) (mkss 0 0 bi_new meta)).
  { split; [split; [reflexivity|apply others; [lia|apply others; [lia|reflexivity]]]|]. split; [reflexivity|]. split; [reflexivity|]. cbn [sg_data sg_index sg_block_index sg_meta].
    rewrite (new_pos _ _ _ _ EI), (new_pos _ _ _ _ ED). reflexivity. }
  clearbody fs2. clear C1 C2. destruct (writer_write_block w2 ix index_file_signature) as [[w3 ix3] r3] eqn:E3.
  match goal with |- context [index_block_call ?b ?s ?n] => destruct (index_call fs2 w2 _ s b n w3 ix3 r3 H2 E3) as (fs3 & s3 & R3 & H3) end.
  rewrite R3. clear R3. destruct r3 as [u|]; [|eexists; split; [reflexivity|]; split; [apply H3|]; intros outs X; discriminate X].
  cbn [sg_index sg_data sg_block_index sg_meta] in H3. destruct (writer_write_block w3 dt data_file_signature) as [[w4 dt4] r4] eqn:E4.
  match goal with |- context [data_block_call ?b ?s ?n] => destruct (data_call fs3 w3 _ s b n w4 dt4 r4 H3 E4) as (fs4 & s4 & R4 & H4) end.
  rewrite R4. clear R4. destruct r4 as [u4|]; [|eexists; split; [reflexivity|]; split; [apply H4|]; intros outs X; discriminate X].
  cbn [sg_index sg_data sg_block_index sg_meta] in H4. clear H2 H3 E3 E4 EI ED.
  destruct (caught_seg p w4 _ ops) as [[w5 sg5] outs] eqn:RS.
  match goal with |- context [caught_ops_client p ops s4 ?n] => destruct (caught_ops_reaches p ops fs4 w4 _ s4 n _ _ _ H4 RS) as (fs5 & s5 & R5 & H5) end. rewrite R5. clear R5. destruct H5 as ((K1 & K0) & K2 & K3 & _).
  unfold segment_sync. destruct (writer_sync w5 (sg_index sg5)) as [[w6 ix6] r6] eqn:E6. pose proof (sync_settled _ _ _ _ _ E6) as S6. destruct r6 as [u6|].
  - destruct (writer_sync w6 (sg_data sg5)) as [[w7 dt7] r7] eqn:E7. pose proof (sync_settled _ _ _ _ _ E7) as S7.
    eexists. split; [cbn [run_client]; rewrite (call_do fs5 0 WSync _ w6 ix6 (Ok u6) K2); [|cbn [writer_step]; rewrite K1; exact E6]; cbn [run_client];
      erewrite (call_do _ 1 WSync _ w7 dt7 r7); [|exact K3|exact E7]; reflexivity|]. split; [reflexivity|].
    intros _ _. split; [apply others; [lia|apply others; [lia|exact K0]]|]. intros i t HI. cbn [fs_writer] in HI. destruct i as [|[|i]]; [injection HI as <-; exact S6|injection HI as <-; exact S7|]. unfold set_at in HI. cbn in HI. rewrite K0 in HI; [discriminate HI|lia].
  - eexists. split; [cbn [run_client]; rewrite (call_do fs5 0 WSync _ w6 ix6 Err K2); [|cbn [writer_step]; rewrite K1; exact E6]; reflexivity|]. split; [reflexivity|].
    intros outs' X. cbn [snd] in X. injection X as _ X. discriminate X.
Qed.

(** C76, with panics: a segment whose calls may fail or panic, after which the caller
    goes on, ends each call, with whatever timing, as Segment.v and Caught.v say it does
    with some plan of failures.  Once it was synced without error, its files are the
    same too. *)
Theorem C76_caught : forall p w base info ops timing, is_id (si_segment_id info) ->
  exists st out plan w1, bg_client (caught_client p base info ops) (bg_none w timing) = Some (st, Ret out)
    /\ caught_program p (mkworld (wd_log w) plan (wd_max w)) base info ops = (w1, out)
    /\ forall outs, out = Ok (outs, Ok tt) -> forall d f, events f (wd_log (bs_os st)) = events f (wd_log w1) /\ directory_after d (wd_log (bs_os st)) f = directory_after d (wd_log w1) f.
Proof.
  intros p w base info ops timing ID.
  assert (NE : index_path base (si_segment_id info) <> data_path base (si_segment_id info)) by (destruct (C49_distinct base _ _ ID ID) as (_ & _ & X); congruence).
  pose proof (fun w0 => caught_client_runs p w0 base info ops NE) as RUN.
  pose proof (client_agree (fun _ => True) I (wd_max w) (caught_client p base info ops) _ _ _ _ (agree_none_yet (fun _ => True) w timing (proj2 (Forall_forall _ _) (fun _ _ => I)))) as G.
  destruct (bg_client (caught_client p base info ops) (bg_none w timing)) as [[st out]|].
  - destruct G as (used & L1 & ws1 & names1 & _ & E & AG). specialize (E []). rewrite app_nil_r in E.
    destruct (RUN (mkworld (wd_log w) used (wd_max w))) as (fs & E' & O & SY). unfold no_files in E'. rewrite E in E'. injection E' as <- ->.
    destruct (caught_program p (mkworld (wd_log w) used (wd_max w)) base info ops) as [w1 out] eqn:CP. cbn [fst snd] in *. exists st, out, used, w1. split; [reflexivity|]. split; [exact CP|].
    intros outs X d f. destruct (SY _ X) as (SL & SET). subst w1. cbn [fs_os wd_log fs_writer] in *.
    assert (EV : events f (wd_log (bs_os st)) = events f L1).
    { assert (W : forall i t, ws1 i = Some t -> events (tf_path (wr_file t)) (wd_log (bs_os st)) = events (tf_path (wr_file t)) L1).
      { intros i t HT. destruct (agree_file _ _ _ _ _ _ _ _ AG HT) as [CA [Y|(ch & fate & _ & BU & _)]]; [exact Y|]. destruct (SET i t HT) as [Z|Z]; [congruence|]. specialize (CA Z). congruence. }
      assert (D : forall i, (exists t, ws1 i = Some t /\ tf_path (wr_file t) = f) \/ forall t, ws1 i = Some t -> tf_path (wr_file t) <> f).
      { intros i. destruct (ws1 i) as [t|]; [|right; intros t H; discriminate H]. destruct (path_dec (tf_path (wr_file t)) f) as [P|P]; [left; exists t; auto|right; intros t' H; injection H as <-; exact P]. }
      destruct (D 0) as [(t & HT & <-)|D0]; [exact (W _ _ HT)|]. destruct (D 1) as [(t & HT & <-)|D1]; [exact (W _ _ HT)|].
      apply (agree_other _ _ _ _ _ _ f AG). intros [|[|i]] t HT; [exact (D0 t HT)|exact (D1 t HT)|]. rewrite SL in HT; [discriminate HT|lia]. }
    split; [exact EV|]. rewrite directory_events, EV, <- directory_events. reflexivity.
  - exfalso. destruct G as (used & _ & E). specialize (E []). rewrite app_nil_r in E. destruct (RUN (mkworld (wd_log w) used (wd_max w))) as (fs & E' & _). unfold no_files in E'. rewrite E in E'. discriminate E'.
Qed.
Print Assumptions C76_caught.

(** And a crash may leave the same with all timings. *)
Theorem C76_caught_crash : forall p w base info ops timing, is_id (si_segment_id info) ->
  exists st out plan w1, bg_client (caught_client p base info ops) (bg_none w timing) = Some (st, Ret out)
    /\ caught_program p (mkworld (wd_log w) plan (wd_max w)) base info ops = (w1, out)
    /\ forall outs, out = Ok (outs, Ok tt) -> forall sn d more d', after_crash sn d (wd_log (bs_os st) ++ more) d' <-> after_crash sn d (wd_log w1 ++ more) d'.
Proof.
  intros p w base info ops timing ID. destruct (C76_caught p w base info ops timing ID) as (st & out & plan & w1 & E & O & SA). exists st, out, plan, w1. split; [exact E|]. split; [exact O|].
  intros outs X sn d more d'. specialize (SA outs X d).
  assert (K : forall f, crash_state sn d f (wd_log (bs_os st) ++ more) = crash_state sn d f (wd_log w1 ++ more)).
  { intros f. apply crash_state_events. rewrite !events_app, (proj1 (SA f)). reflexivity. }
  split; intros AC f; specialize (AC f).
  - change (crash_leaves (crash_state sn d f (wd_log w1 ++ more)) (d' f)). rewrite <- K. exact AC.
  - change (crash_leaves (crash_state sn d f (wd_log (bs_os st) ++ more)) (d' f)). rewrite K. exact AC.
Qed.
Print Assumptions C76_caught_crash.

(** The columns of [C103_witness], the second of which panics, with the timing of
    [C76_segment_witness]. *)
Example C76_caught_witness :
  let w := mkworld [] [] 20 in
  let timing := [[]; []; []; [0]; [1]; [1]; [0]; [1]; [0; 1]; [1]; [0]; [0]; [1]] in
  let ops := map (fun c => SColumn (fst c) (snd c)) ex_caught ++ [SClose ex_it] in
  exists st outs w1, bg_client (caught_client Debug ex_base ex_info ops) (bg_none w timing) = Some (st, Ret (Ok (outs, Ok tt)))
     /\ caught_program Debug w ex_base ex_info ops = (w1, Ok (outs, Ok tt))
     /\ length outs = 4 /\ nth 2 (nth 1 outs []) (Ret Err) = Panic PAssert
     /\ nth 2 (wd_log (bs_os st)) (FSync []) = FAppend (index_path ex_base (si_segment_id ex_info)) index_file_signature
     /\ nth 2 (wd_log w1) (FSync []) = FAppend (data_path ex_base (si_segment_id ex_info)) data_file_signature
     /\ directory_after (fun _ => None) (wd_log (bs_os st)) (data_path ex_base (si_segment_id ex_info)) = directory_after (fun _ => None) (wd_log w1) (data_path ex_base (si_segment_id ex_info)).
Proof.
  intros w timing ops.
  destruct (bg_client (caught_client Debug ex_base ex_info ops) (bg_none w timing)) as [[st a]|] eqn:E1; [|vm_compute in E1; discriminate E1].
  destruct (caught_program Debug w ex_base ex_info ops) as [w1 b] eqn:E2.
  vm_compute in E1, E2. injection E1 as <- <-. injection E2 as <- <-. eexists. eexists. eexists. split; [reflexivity|]. split; [reflexivity|]. split; [reflexivity|]. split; [reflexivity|]. split; [vm_compute; reflexivity|]. split; vm_compute; reflexivity.
Qed.
