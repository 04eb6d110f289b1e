(** C73: the block index after a failed write (block_sink.rs, block_index.rs). *)
From Verif Require Import Base Buffers Sink PrimEnc BinEnc Io SpecIo IoProofs Metadata SpecProto Names PropsNames Segment SpecSegment SegmentRunProofs
  PropsSegment PropsSegmentEx.
Open Scope nat_scope.

(** * Vocabulary *)

(** A sink that accepts some blocks, and rejects the others; both kinds are
    kept. *)
Record sink_log := mklog { lg_room : nat; lg_accepted : list (N * list N); lg_rejected : list (N * list N) }.

Definition accepts : sink_fn sink_log :=
  fun s row_id data =>
    match lg_room s with
    | O => (mklog 0 (lg_accepted s) (lg_rejected s ++ [(row_id, data)]), Err)
    | S n => (mklog n (lg_accepted s ++ [(row_id, data)]) (lg_rejected s), Ok tt)
    end.

(** Where blocks end that are handed over from position [from] on. *)
Fixpoint block_ends (from : N) (blocks : list (N * list N)) : list N :=
  match blocks with
  | [] => []
  | b :: rest => (from + N.of_nat (length (snd b)))%N :: block_ends (from + N.of_nat (length (snd b))) rest
  end.

(** How the index and the position of the data file change when some blocks are
    accepted, and then perhaps one rejected. *)
Definition index_grows (sg sg1 : segment) (accepted rejected : list (N * list N)) : Prop :=
  bi_row_id (sg_block_index sg1) = bi_row_id (sg_block_index sg) ++ map fst accepted
  /\ bi_offset (sg_block_index sg1) = bi_offset (sg_block_index sg) ++ block_ends (wr_pos (sg_data sg)) accepted
  /\ wr_pos (sg_data sg1) = (wr_pos (sg_data sg) + N.of_nat (length (concat (map snd (accepted ++ rejected)))))%N.

(** * What an encoder hands to a sink *)

(** The sink takes [done]; then [last], if any, is rejected. *)
Definition hands {S} (wr : sink_fn S) (s : S) (done : list (N * list N)) (last : option (N * list N)) (s' : S) (res : result unit) : Prop :=
  exists s1, SegmentProofs.feed wr s done = (s1, Ok tt)
    /\ match last with
       | None => s' = s1 /\ res = Ok tt
       | Some (r, b) => wr s1 r b = (s', Err) /\ res = Err
       end.

Lemma hands_nil {S} (wr : sink_fn S) s : hands wr s [] None s (Ok tt).
Proof. exists s. repeat split. Qed.

Lemma hands_cons {S} (wr : sink_fn S) s r b s1 done last s' res :
  wr s r b = (s1, Ok tt) -> hands wr s1 done last s' res -> hands wr s ((r, b) :: done) last s' res.
Proof. intros W (s2 & F & L). exists s2. split; [cbn [SegmentProofs.feed]; rewrite W; exact F|exact L]. Qed.

Lemma hands_uncons {S} (wr : sink_fn S) s r b done last s' res : hands wr s ((r, b) :: done) last s' res ->
  exists s1, wr s r b = (s1, Ok tt) /\ hands wr s1 done last s' res.
Proof.
  intros (s2 & F & L). cbn [SegmentProofs.feed] in F. destruct (wr s r b) as [s1 [[]|]]; [|discriminate F]. exists s1. split; [reflexivity|]. exists s2. auto.
Qed.

Section Two.
Context {S : Type} (wr : sink_fn S) (p : profile).

(** [run] does the same with any other sink that treats the same blocks alike. *)
Definition alike {E} (run : forall T, sink_fn T -> T -> outcome (E * T * result unit)) (s : S) (e' : E) (s' : S) (res : result unit) : Prop :=
  exists done last, hands wr s done last s' res
    /\ forall T (wr2 : sink_fn T) t t', hands wr2 t done last t' res -> run T wr2 t = Ret (e', t', res).

Lemma be_write_alike e buf c bp s e' s' res : be_write wr p e buf c bp s = Ret (e', s', res) ->
  exists r b k r0, wr s r b = (s', r0) /\ res = match r0 with Ok _ => Ok k | Err => Err end
    /\ forall T (wr2 : sink_fn T) t, be_write wr2 p e buf c bp t = Ret (e', fst (wr2 t r b), match snd (wr2 t r b) with Ok _ => Ok k | Err => Err end).
Proof.
  unfold be_write. intros H. destruct (encode_binary_buffer p buf c bp (be_bitmap e)) as [[[enc rle] [n lv]]|k|]; cbn [bind] in H |- *; try discriminate.
  destruct (be_add_rows (be_rows e) n) as [rows|k|]; cbn [bind] in H |- *; try discriminate.
  destruct (sub32 p rows 1) as [row_id|k|]; cbn [bind] in H |- *; try discriminate.
  destruct (wr s row_id enc) as [s1 r0] eqn:W. cbn [fst snd] in H. injection H as <- <- <-.
  exists row_id, enc, lv, r0. split; [exact W|]. split; [reflexivity|]. intros T wr2 t. reflexivity.
Qed.

Lemma be_loop_alike fuel : forall e buf bpos vp s e' s' res, be_loop wr p fuel e buf bpos vp s = Ret (e', s', res) ->
  alike (fun T wr2 t => be_loop wr2 p fuel e buf bpos vp t) s e' s' res.
Proof.
  induction fuel as [|fuel IH]; intros e buf bpos vp s e' s' res H; cbn [be_loop] in H; [discriminate|].
  unfold alike. cbn [be_loop]. destruct (bpos <? length (bb_offsets buf)).
  2:{ injection H as <- <- <-. exists [], None. split; [apply hands_nil|]. intros T wr2 t t' (t1 & F & -> & _). injection F as <-. reflexivity. }
  destruct (be_chunk p buf bpos (be_min e)) as [c|k|]; cbn [bind] in H |- *; try discriminate.
  destruct (bc_size c <? be_min e)%N.
  - destruct (bb_append_from p (be_remaining e) buf (bc_start c) (bc_end c) vp) as [r|k|]; cbn [bind] in H |- *; try discriminate.
    injection H as <- <- <-. exists [], None. split; [apply hands_nil|]. intros T wr2 t t' (t1 & F & -> & _). injection F as <-. reflexivity.
  - destruct (be_write wr p e buf c vp s) as [[[e1 s1] res1]|k|] eqn:W; cbn [bind] in H; try discriminate.
    destruct (be_write_alike _ _ _ _ _ _ _ _ W) as (r & b & k & r0 & Wr & -> & C). destruct r0 as [[]|].
    + destruct (IH _ _ _ _ _ _ _ _ H) as (done & last & HH & G). exists ((r, b) :: done), last. split; [eapply hands_cons; eassumption|].
      intros T wr2 t t' H2. apply hands_uncons in H2. destruct H2 as (t1 & W2 & H2). rewrite C, W2. cbn [bind fst snd]. apply G, H2.
    + injection H as <- <- <-. exists [], (Some (r, b)). split; [exists s; repeat split; exact Wr|].
      intros T wr2 t t' (t1 & F & W2 & _). injection F as <-. rewrite C, W2. reflexivity.
Qed.

Lemma be_write_remaining_alike e s e' s' res : be_write_remaining wr p e s = Ret (e', s', res) ->
  exists r b k r0, wr s r b = (s', r0) /\ res = match r0 with Ok _ => Ok k | Err => Err end
    /\ forall T (wr2 : sink_fn T) t, be_write_remaining wr2 p e t = Ret (e', fst (wr2 t r b), match snd (wr2 t r b) with Ok _ => Ok k | Err => Err end).
Proof.
  unfold be_write_remaining. intros H. destruct (idx _ _) as [o|k|]; cbn [bind] in H |- *; try discriminate. apply be_write_alike, H.
Qed.

Lemma be_encode_alike fuel e buf s e' s' res : be_encode wr p fuel e buf s = Ret (e', s', res) ->
  alike (fun T wr2 t => be_encode wr2 p fuel e buf t) s e' s' res.
Proof.
  unfold be_encode. intros H. destruct (0 <? bb_len (be_remaining e)) eqn:R0; [|apply be_loop_alike in H; exact H].
  unfold alike. cbv beta. destruct (sub64 p _ _) as [want|k|]; cbn [bind] in H |- *; try discriminate.
  destruct (be_chunk p buf 0 want) as [c|k|]; cbn [bind] in H |- *; try discriminate.
  destruct (bb_append_from p (be_remaining e) buf (bc_start c) (bc_end c) 0) as [r|k|]; cbn [bind] in H |- *; try discriminate.
  cbn zeta in H |- *. set (e1 := be_set_remaining e (fst r)) in *. clearbody e1. destruct (_ <? be_min e1)%N.
  - injection H as <- <- <-. exists [], None. split; [apply hands_nil|]. intros T wr2 t t' (t1 & F & -> & _). injection F as <-. reflexivity.
  - destruct (be_write_remaining wr p e1 s) as [[[e2 s2] res2]|k|] eqn:W; cbn [bind] in H; try discriminate.
    destruct (be_write_remaining_alike _ _ _ _ _ W) as (rr & b & k & r0 & Wr & -> & C). destruct r0 as [[]|].
    + destruct (be_loop_alike _ _ _ _ _ _ _ _ _ H) as (done & last & HH & G). exists ((rr, b) :: done), last. split; [eapply hands_cons; eassumption|].
      intros T wr2 t t' H2. apply hands_uncons in H2. destruct H2 as (t1 & W2 & H2). rewrite C, W2. cbn [bind fst snd]. apply G, H2.
    + injection H as <- <- <-. exists [], (Some (rr, b)). split; [exists s; repeat split; exact Wr|].
      intros T wr2 t t' (t1 & F & W2 & _). injection F as <-. rewrite C, W2. reflexivity.
Qed.

Lemma be_flush_alike e s e' s' res : be_flush wr p e s = Ret (e', s', res) -> alike (fun T wr2 t => be_flush wr2 p e t) s e' s' res.
Proof.
  unfold be_flush, alike. intros H. destruct (0 <? bb_len (be_remaining e)).
  - destruct (be_write_remaining wr p e s) as [[[e2 s2] res2]|k|] eqn:W; cbn [bind] in H; try discriminate.
    destruct (be_write_remaining_alike _ _ _ _ _ W) as (rr & b & k & r0 & Wr & -> & C). injection H as <- <- <-. destruct r0 as [[]|].
    + exists [(rr, b)], None. split; [eapply hands_cons; [exact Wr|apply hands_nil]|].
      intros T wr2 t t' H2. apply hands_uncons in H2. destruct H2 as (t1 & W2 & t2 & F & -> & _). injection F as <-. rewrite C, W2. reflexivity.
    + exists [], (Some (rr, b)). split; [exists s; repeat split; exact Wr|].
      intros T wr2 t t' (t1 & F & W2 & _). injection F as <-. rewrite C, W2. reflexivity.
  - injection H as <- <- <-. exists [], None. split; [apply hands_nil|]. intros T wr2 t t' (t1 & F & -> & _). injection F as <-. reflexivity.
Qed.

Lemma bin_encode_alike e buf s e' s' res : bin_encode wr p e buf s = Ret (e', s', res) ->
  alike (fun T wr2 t => bin_encode wr2 p e buf t) s e' s' res.
Proof.
  unfold bin_encode, alike. intros H. destruct e as [e|].
  - destruct (be_encode wr p _ e buf s) as [[[e1 s1] res1]|k|] eqn:E; cbn [bind] in H; try discriminate. injection H as <- <- <-.
    destruct (be_encode_alike _ _ _ _ _ _ _ E) as (done & last & HH & G). exists done, last. split; [exact HH|].
    intros T wr2 t t' H2. rewrite (G T wr2 t t' H2). reflexivity.
  - cbn zeta in H. destruct (wr s 43243%N snappy_data) as [s1 [[]|]] eqn:W; cbn [fst snd] in H; injection H as <- <- <-.
    + exists [(43243%N, snappy_data)], None. split; [eapply hands_cons; [exact W|apply hands_nil]|].
      intros T wr2 t t' H2. apply hands_uncons in H2. destruct H2 as (t1 & W2 & t2 & F & -> & _). injection F as <-. cbn zeta. rewrite W2. reflexivity.
    + exists [], (Some (43243%N, snappy_data)). split; [exists s; repeat split; exact W|].
      intros T wr2 t t' (t1 & F & W2 & _). injection F as <-. cbn zeta. rewrite W2. reflexivity.
Qed.

(** Whether a flush succeeded. *)
Definition flushed (r : outcome (bin_encoder * S * result encoder_layout)) : outcome (bin_encoder * S * result unit) :=
  let* r := r in let '(e, s, res) := r in Ret (e, s, match res with Ok _ => Ok tt | Err => Err end).
End Two.

Lemma bin_flush_alike {S} (wr : sink_fn S) p e s e' s' res : bin_flush wr p e s = Ret (e', s', res) ->
  alike wr (fun T wr2 t => flushed (bin_flush wr2 p e t)) s e' s' (match res with Ok _ => Ok tt | Err => Err end).
Proof.
  unfold bin_flush, alike, flushed. intros H. destruct e as [e|].
  - destruct (be_flush wr p e s) as [[[e1 s1] res1]|k|] eqn:E; cbn [bind] in H; try discriminate. injection H as <- <- <-.
    destruct (be_flush_alike _ _ _ _ _ _ _ E) as (done & last & HH & G). exists done, last. split; [destruct res1 as [[]|]; exact HH|].
    intros T wr2 t t' H2. rewrite (G T wr2 t t'); [|destruct res1 as [[]|]; exact H2]. cbn [bind]. destruct res1; reflexivity.
  - injection H as <- <- <-. exists [], None. split; [apply hands_nil|]. intros T wr2 t t' (t1 & F & -> & _). injection F as <-. reflexivity.
Qed.

(** * The two sinks *)

Lemma accepts_feed bl : forall n acc rej, SegmentProofs.feed accepts (mklog (length bl + n) acc rej) bl = (mklog n (acc ++ bl) rej, Ok tt).
Proof.
  induction bl as [|[r b] bl IH]; intros n acc rej; cbn [SegmentProofs.feed length Nat.add]; [rewrite app_nil_r; reflexivity|].
  unfold accepts at 1. cbn [lg_room lg_accepted lg_rejected]. rewrite IH, <- app_assoc. reflexivity.
Qed.

Lemma write_pos w wr b w1 wr1 r : writer_write_block w wr b = (w1, wr1, r) -> wr_pos wr1 = (wr_pos wr + N.of_nat (length b))%N.
Proof. unfold writer_write_block. destruct (tk_write_all _ _ _ _) as [[a f] q]. intros [= <- <- <-]. reflexivity. Qed.

Lemma sink_feed bl : forall w wr bi w1 wr1 bi1, SegmentProofs.feed sink_write (w, wr, bi) bl = ((w1, wr1, bi1), Ok tt) ->
  bi_row_id bi1 = bi_row_id bi ++ map fst bl /\ bi_offset bi1 = bi_offset bi ++ block_ends (wr_pos wr) bl
  /\ wr_pos wr1 = (wr_pos wr + N.of_nat (length (concat (map snd bl))))%N.
Proof.
  induction bl as [|[r b] bl IH]; intros w wr bi w1 wr1 bi1 F; cbn [SegmentProofs.feed] in F.
  - injection F as <- <- <-. cbn. rewrite !app_nil_r, N.add_0_r. auto.
  - unfold sink_write at 1 in F. destruct (writer_write_block w wr b) as [[w0 wr0] [[]|]] eqn:W; [|discriminate F].
    apply write_pos in W. destruct (IH _ _ _ _ _ _ F) as (A & C & D). unfold index_block, writer_pos in A, C. cbn [bi_row_id bi_offset] in A, C.
    rewrite A, C, D, W. cbn [map fst snd block_ends concat]. rewrite <- !app_assoc, app_length. repeat split. lia.
Qed.

Lemma sink_hands w wr bi done last w1 wr1 bi1 res : hands sink_write (w, wr, bi) done last (w1, wr1, bi1) res ->
  exists rejected, rejected = match last with Some b => [b] | None => [] end
    /\ bi_row_id bi1 = bi_row_id bi ++ map fst done /\ bi_offset bi1 = bi_offset bi ++ block_ends (wr_pos wr) done
    /\ wr_pos wr1 = (wr_pos wr + N.of_nat (length (concat (map snd (done ++ rejected)))))%N
    /\ hands accepts (mklog (length done) [] []) done last (mklog 0 done rejected) res
    /\ length rejected = match res with Ok _ => 0 | Err => 1 end.
Proof.
  intros ([[w2 wr2] bi2] & F & L). destruct (sink_feed _ _ _ _ _ _ _ F) as (A & C & D). eexists. split; [reflexivity|].
  pose proof (accepts_feed done 0 [] []) as AF. rewrite Nat.add_0_r in AF. cbn [app] in AF.
  destruct last as [[r b]|]; destruct L as [L ->].
  - unfold sink_write in L. destruct (writer_write_block w2 wr2 b) as [[w3 wr3] [u|]] eqn:W; [discriminate L|]. injection L as <- <- <-.
    apply write_pos in W. split; [exact A|]. split; [exact C|]. split.
    + rewrite W, D, map_app, concat_app, app_length. cbn [map snd concat]. rewrite app_nil_r. lia.
    + split; [|reflexivity]. eexists. split; [exact AF|]. split; reflexivity.
  - injection L as <- <- <-. split; [exact A|]. split; [exact C|]. rewrite app_nil_r. split; [exact D|]. split; [|reflexivity].
    eexists. split; [exact AF|]. split; reflexivity.
Qed.

(** * C73 *)

(** After every call, whatever was reported: the encoder is where one is whose
    sink accepted some blocks and, in case of an error, rejected the next one;
    the index got an entry for each block accepted, and none for the rejected
    one; but the position counts that, too. *)
Theorem C73_write_exact_partial : forall p w sg cw buf w1 sg1 cw1 res, column_write p w sg cw buf = Ret (w1, sg1, cw1, res) ->
  exists accepted rejected,
    bin_encode accepts p (cw_encoder cw) buf (mklog (length accepted) [] []) = Ret (cw_encoder cw1, mklog 0 accepted rejected, res)
    /\ length rejected = (match res with Ok _ => 0 | Err => 1 end)
    /\ index_grows sg sg1 accepted rejected.
Proof.
  intros p w sg cw buf w1 sg1 cw1 res H. unfold column_write in H.
  destruct (bin_encode sink_write p (cw_encoder cw) buf _) as [[[e [[wa dt] bi]] r]|k|] eqn:E; cbn [bind] in H; try discriminate. injection H as <- <- <- <-.
  destruct (bin_encode_alike _ _ _ _ _ _ _ _ E) as (done & last & HH & G). destruct (sink_hands _ _ _ _ _ _ _ _ _ HH) as (rej & _ & A & C & D & HA & L).
  exists done, rej. split; [exact (G _ _ _ _ HA)|]. split; [exact L|]. split; [exact A|]. split; [exact C|exact D].
Qed.
Print Assumptions C73_write_exact_partial.

Theorem C73_close_exact_partial : forall p w sg cw w1 sg1 cw1 res, column_close p w sg cw = Ret (w1, sg1, cw1, res) ->
  exists accepted rejected,
    flushed (bin_flush accepts p (cw_encoder cw) (mklog (length accepted) [] [])) = Ret (cw_encoder cw1, mklog 0 accepted rejected, res)
    /\ length rejected = (match res with Ok _ => 0 | Err => 1 end)
    /\ index_grows sg sg1 accepted rejected.
Proof.
  intros p w sg cw w1 sg1 cw1 res H. unfold column_close in H.
  destruct (bin_flush sink_write p (cw_encoder cw) _) as [[[e [[wa dt] bi]] r]|k|] eqn:E; cbn [bind] in H; try discriminate.
  pose proof (bin_flush_alike _ _ _ _ _ _ _ E) as (done & last & HH & G). destruct (sink_hands _ _ _ _ _ _ _ _ _ HH) as (rej & _ & A & C & D & HA & L).
  assert (Q : w1 = wa /\ cw_encoder cw1 = e /\ sg_block_index sg1 = bi /\ sg_data sg1 = dt /\ res = match r with Ok _ => Ok tt | Err => Err end).
  { destruct r as [lay|]; cbn zeta in H; [destruct (md_segment_meta (sg_meta sg)); [|discriminate H]|]; injection H as <- <- <- <-; repeat split. }
  destruct Q as (-> & QE & QB & QD & QR). exists done, rej. rewrite QE, QR. split; [exact (G _ _ _ _ HA)|]. split; [exact L|].
  unfold index_grows. rewrite QB, QD. split; [exact A|]. split; [exact C|exact D].
Qed.
Print Assumptions C73_close_exact_partial.

(** The full statement: when the segment is finally closed without an error, all
    blocks of the index are in the data file. *)
Definition C73_statement : Prop := forall (d : directory) p w base info w1 sg ci cops it w2 sg2 rs rs' file,
  0 < wd_max w -> is_id (si_segment_id info) -> segment_new w base info = (w1, Ok sg) ->
  orders_ok [SClose it] -> seg_run p w1 sg [SColumn ci cops; SClose it] = Ret (w2, sg2, rs) -> rs = rs' ++ [Ok tt] ->
  directory_after d (wd_log w2) (data_path base (si_segment_id info)) = Some file ->
  Forall (fun offset => offset <= N.of_nat (length file))%N (bi_offset (sg_block_index sg2)).

(** The write of the first block fails in the background, which the second call
    reports, for the second block.  The third block is accepted.  The index then
    has two blocks, the data file only the last of these. *)
Theorem C73_refuted :
  ~ C73_statement
  /\ match run_from Debug (mkworld [] [None; None; None; Some 0] 50) ex_base ex_info
             [SColumn ex_b [CWrite ex_buf; CWrite ex_buf; CWrite ex_buf; CClose]; SClose ex_it] with
     | Some (w, sg, rs) =>
         rs = [Ok tt; Ok tt; Err; Ok tt; Ok tt; Ok tt] /\ bi_offset (sg_block_index sg) = [19; 31]%N
         /\ directory_after (fun _ => None) (wd_log w) (data_path ex_base (si_segment_id ex_info))
            = Some ([77; 69; 69; 82; 75; 65; 84; 95; 68; 65; 84; 65; 49] ++ [115; 110; 97; 112; 112; 121])%N
     | None => False
     end.
Proof.
  assert (X : match run_from Debug (mkworld [] [None; None; None; Some 0] 50) ex_base ex_info
                     [SColumn ex_b [CWrite ex_buf; CWrite ex_buf; CWrite ex_buf; CClose]; SClose ex_it] with
             | Some (w, sg, rs) =>
                 rs = [Ok tt; Ok tt; Err; Ok tt; Ok tt; Ok tt] /\ bi_offset (sg_block_index sg) = [19; 31]%N
                 /\ directory_after (fun _ => None) (wd_log w) (data_path ex_base (si_segment_id ex_info))
                    = Some ([77; 69; 69; 82; 75; 65; 84; 95; 68; 65; 84; 65; 49] ++ [115; 110; 97; 112; 112; 121])%N
             | None => False
             end) by (vm_compute; repeat split).
  split; [|exact X]. intros H. unfold run_from in X.
  destruct (segment_new (mkworld [] [None; None; None; Some 0] 50) ex_base ex_info) as [w1 [sg|]] eqn:N; [|contradiction].
  destruct (seg_run _ _ _ _) as [[[w2 sg2] rs]|k|] eqn:R; [|contradiction..]. destruct X as (ER & EO & EF).
  assert (F : Forall (fun offset => offset <= 19)%N (bi_offset (sg_block_index sg2))).
  { refine (H _ _ _ _ _ _ _ _ _ _ _ _ _ [Ok tt; Ok tt; Err; Ok tt; Ok tt] _ _ _ N _ R ER EF); [cbn; lia|split; [reflexivity|repeat constructor]|].
    repeat constructor; intros l; cbn; try apply Permutation.Permutation_rev; apply Permutation.Permutation_refl. }
  clear H. rename F into H.
  rewrite EO in H. apply Forall_cons_iff in H. destruct H as [_ H]. apply Forall_cons_iff in H. destruct H as [H _]. vm_compute in H. apply H. reflexivity.
Qed.
Print Assumptions C73_refuted.

(** In that run, the second call: no block accepted and one rejected. *)
Example C73_witness :
  match segment_new (mkworld [] [None; None; None; Some 0] 50) ex_base ex_info with
  | (w1, Ok sg) =>
      match new_binary_column_writer sg ex_b with
      | (sg, Ok cw) =>
          match column_write Debug w1 sg cw ex_buf with
          | Ret (w2, sg2, cw2, Ok _) =>
              match column_write Debug w2 sg2 cw2 ex_buf with
              | Ret (w3, sg3, cw3, Err) => index_grows sg2 sg3 [] [(43243, [115; 110; 97; 112; 112; 121])]%N /\ bi_offset (sg_block_index sg3) = [19]%N /\ wr_pos (sg_data sg3) = 25%N
              | _ => False
              end
          | _ => False
          end
      | _ => False
      end
  | _ => False
  end.
Proof. vm_compute. repeat split. Qed.
