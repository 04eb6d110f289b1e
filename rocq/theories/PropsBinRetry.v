(** Property C55 for a binary column without held back rows
    (raw/binary_enc.rs): every buffer, block size, build and earlier history. *)
From Verif Require Import Base BaseProofs Spec SpecRows Varint Buffers Observe BuffersProofs
  Rle RleTrackProofs Offsets OffsetsProofs Sink PrimEnc BinEnc ObserveEnc PrimEncProofs PropsPrimErr PropsBinErr PropsSegmentRef.
Open Scope nat_scope.

(** The identifiers of blocks moved by [d]. *)
Definition moved (d : N) (blocks : list (N * list N)) : list (N * list N) := map (fun b => (fst b + d, snd b)%N) blocks.

Section Binary.
Variable p : profile.

(** [e'] is [e] having counted [d] rows more, whatever it encoded before. *)
Definition bahead (d : N) (e e' : bin_enc) : Prop :=
  be_remaining e' = be_remaining e /\ be_min e' = be_min e /\ be_rows e' = (be_rows e + d)%N.

Lemma be_write_ahead e buf c bp s e1 s1 lvp : (bc_start c < bc_end c -> bc_len c = N.of_nat (bc_end c - bc_start c)) ->
  be_write collect p e buf c bp s = Ret (e1, s1, Ok lvp) ->
  exists id b, s1 = s ++ [(id, b)] /\ be_rows e1 = (id + 1)%N /\ (be_rows e <= id)%N /\ be_remaining e1 = be_remaining e /\ be_min e1 = be_min e
    /\ forall S (wr : sink_fn S) e' d t, bahead d e e' ->
         if (be_rows e1 + d <=? u32_max)%N then
           exists e1', bahead d e1 e1' /\ be_write wr p e' buf c bp t = Ret (e1', fst (wr t (id + d)%N b), match snd (wr t (id + d)%N b) with Ok _ => Ok lvp | Err => Err end)
         else be_write wr p e' buf c bp t = Panic PExpect.
Proof.
  intros L H. unfold be_write in H.
  destruct (encode_binary_buffer p buf c bp (be_bitmap e)) as [[[out rle'] [n lv]]| |] eqn:EE; try discriminate.
  cbn [bind] in H. pose proof (encode_bin_pos _ _ _ _ _ _ _ _ _ EE L) as HN.
  destruct (be_add_rows (be_rows e) n) as [r| |] eqn:EA; try discriminate. cbn [bind] in H.
  unfold be_add_rows in EA. destruct (N.leb_spec (N.of_nat n) u32_max) as [LN|]; [|discriminate].
  destruct (N.leb_spec (be_rows e + N.of_nat n) u32_max) as [LR|]; [|discriminate]. injection EA as <-.
  rewrite sub32_ok in H by lia. cbn [bind collect fst snd] in H. injection H as <- <- <-.
  exists (be_rows e + N.of_nat n - 1)%N, out. cbn [be_rows be_remaining be_min]. repeat split; try lia.
  intros S wr e' d t (R1 & R2 & R3). unfold be_write. destruct (encode_fresh _ _ _ _ _ (be_bitmap e') _ _ _ EE) as (rle2 & E2). rewrite E2. cbn [bind].
  unfold be_add_rows. rewrite R3. destruct (N.leb_spec (N.of_nat n) u32_max); [|lia].
  replace (be_rows e + d + N.of_nat n)%N with (be_rows e + N.of_nat n + d)%N by lia.
  destruct (N.leb_spec (be_rows e + N.of_nat n + d) u32_max) as [LD|LD]; [|reflexivity]. cbn [bind]. rewrite sub32_ok by lia. cbn [bind].
  replace (be_rows e + N.of_nat n + d - 1)%N with (be_rows e + N.of_nat n - 1 + d)%N by lia.
  eexists. split; [|reflexivity]. repeat split; assumption.
Qed.

(** Without a block the counter does not move. *)
Lemma be_loop_still buf fuel : forall e pos vp s e1, be_loop collect p fuel e buf pos vp s = Ret (e1, s, Ok tt) -> be_rows e1 = be_rows e.
Proof.
  induction fuel as [|fuel IH]; intros e pos vp s e1 H; cbn [be_loop] in H; [discriminate|].
  destruct (_ <? _); [|injection H as <-; reflexivity]. destruct (be_chunk p buf pos (be_min e)) as [c| |] eqn:EC; try discriminate. cbn [bind] in H.
  destruct (_ <? _)%N.
  - destruct (bb_append_from _ _ _ _ _ _) as [[b q']| |]; try discriminate. cbn [bind fst] in H. injection H as <-. reflexivity.
  - exfalso. destruct (be_write collect p e buf c vp s) as [[[e2 s2] [lv|]]| |] eqn:EW; cbn [bind] in H; try discriminate.
    destruct (be_write_ahead _ _ _ _ _ _ _ _ (be_chunk_len _ _ _ _ _ EC) EW) as (id & b & -> & _).
    destruct (bloop_step _ _ _ _ _ _ _ _ _ _ H) as (nw & E & _). rewrite <- app_assoc in E. rewrite <- (app_nil_r s) in E at 1. apply app_inv_head in E. discriminate.
Qed.

Lemma be_loop_ahead buf fuel : forall e pos vp s e1 s1, be_loop collect p fuel e buf pos vp s = Ret (e1, s1, Ok tt) ->
  exists new, s1 = s ++ new /\ (be_rows e <= be_rows e1)%N
    /\ (forall e' d acc, bahead d e e' ->
          if (be_rows e1 + d <=? u32_max)%N || match new with [] => true | _ => false end
          then exists e1', be_loop fails_once p fuel e' buf pos vp (None, acc) = Ret (e1', (None, acc ++ moved d new), Ok tt)
          else be_loop fails_once p fuel e' buf pos vp (None, acc) = Panic PExpect)
    /\ (forall k acc, k < length new -> exists e2, be_loop fails_once p fuel e buf pos vp (Some k, acc) = Ret (e2, (None, acc ++ firstn k new), Err)
          /\ bahead (fst (nth k new (0, [])%N) + 1 - be_rows e) e e2 /\ (be_rows e <= fst (nth k new (0, [])))%N).
Proof.
  induction fuel as [|fuel IH]; intros e pos vp s e1 s1 H; cbn [be_loop] in H; [discriminate|].
  destruct (pos <? length (bb_offsets buf)) eqn:EP.
  - destruct (be_chunk p buf pos (be_min e)) as [c| |] eqn:EC; try discriminate. cbn [bind] in H.
    destruct (bc_size c <? be_min e)%N eqn:ES.
    + destruct (bb_append_from _ _ _ _ _ _) as [[b q']| |] eqn:EA; try discriminate. cbn [bind fst] in H. injection H as <- <-.
      exists []. rewrite app_nil_r. split; [reflexivity|]. split; [cbn; lia|]. split; [|intros k acc X; cbn in X; lia].
      intros e' d acc (R1 & R2 & R3). rewrite orb_true_r. cbn [be_loop]. rewrite EP, R2, EC. cbn [bind]. rewrite ES, R1, EA. cbn [bind fst moved map].
      rewrite app_nil_r. eexists; reflexivity.
    + destruct (be_write collect p e buf c vp s) as [[[e0 s0] [lvp|]]| |] eqn:EW; cbn [bind] in H; try discriminate.
      destruct (be_write_ahead _ _ _ _ _ _ _ _ (be_chunk_len _ _ _ _ _ EC) EW) as (id & b & -> & RI & LI & RR & RM & G).
      destruct (IH _ _ _ _ _ _ H) as (new & -> & LE & G1 & G2). exists ((id, b) :: new). split; [rewrite <- app_assoc; reflexivity|]. split; [lia|]. split.
      * intros e' d acc A. rewrite orb_false_r. specialize (G _ fails_once e' d (None, acc) A). cbn [be_loop]. rewrite EP. destruct A as (R1 & R2 & R3).
        rewrite R2, EC. cbn [bind]. rewrite ES. destruct (N.leb_spec (be_rows e0 + d) u32_max) as [L0|L0].
        -- destruct G as (e1' & A1 & ->). cbn [bind fails_once fst snd]. specialize (G1 e1' d (acc ++ [(id + d, b)%N]) A1).
           destruct (N.leb_spec (be_rows e1 + d) u32_max) as [L1|L1]; cbn [orb] in G1.
           ++ destruct G1 as (e2 & ->). exists e2. cbn [moved map fst snd]. rewrite <- app_assoc. reflexivity.
           ++ destruct new as [|x new]; [|exact G1].
              (* no further block: the counter has not moved *)
              exfalso. rewrite app_nil_r in H. apply be_loop_still in H. lia.
        -- rewrite G. cbn [bind]. destruct (N.leb_spec (be_rows e1 + d) u32_max); [lia|reflexivity].
      * intros k acc Hk. assert (A0 : bahead 0 e e) by (repeat split; lia).
        destruct k as [|k].
        -- specialize (G _ fails_once e 0%N (Some 0, acc) A0). destruct (N.leb_spec (be_rows e0 + 0) u32_max) as [L0|L0].
           2:{ exfalso. clear -EW L0. unfold be_write in EW. destruct (encode_binary_buffer _ _ _ _ _) as [[[o r] [n lv]]| |]; cbn [bind] in EW; try discriminate.
               unfold be_add_rows in EW. destruct (_ <=? _)%N; cbn [bind] in EW; [|discriminate]. destruct (N.leb_spec (be_rows e + N.of_nat n) u32_max); cbn [bind] in EW; [|discriminate].
               destruct (sub32 _ _ _); cbn [bind] in EW; try discriminate. injection EW as <- _ _. cbn [be_rows] in L0. lia. }
           destruct G as (e1' & (X1 & X2 & X3) & G). cbn [fails_once fst snd] in G. exists e1'. cbn [be_loop]. rewrite EP, EC. cbn [bind]. rewrite ES, G. cbn [bind firstn nth fst].
           rewrite app_nil_r. split; [reflexivity|]. split; [|exact LI]. split; [congruence|]. split; [congruence|]. lia.
        -- specialize (G _ fails_once e 0%N (Some (S k), acc) A0). destruct (N.leb_spec (be_rows e0 + 0) u32_max) as [L0|L0].
           2:{ exfalso. clear -EW L0. unfold be_write in EW. destruct (encode_binary_buffer _ _ _ _ _) as [[[o r] [n lv]]| |]; cbn [bind] in EW; try discriminate.
               unfold be_add_rows in EW. destruct (_ <=? _)%N; cbn [bind] in EW; [|discriminate]. destruct (N.leb_spec (be_rows e + N.of_nat n) u32_max); cbn [bind] in EW; [|discriminate].
               destruct (sub32 _ _ _); cbn [bind] in EW; try discriminate. injection EW as <- _ _. cbn [be_rows] in L0. lia. }
           destruct G as (e1' & X & G). cbn [fails_once fst snd] in G. rewrite N.add_0_r in G.
           cbn [length] in Hk. cbn [be_loop]. rewrite EP, EC. cbn [bind]. rewrite ES, G. cbn [bind].
           (* [e1'] and [e0] differ only in what they encoded before; use the statement at distance 0 *)
           assert (Q : exists e2, be_loop fails_once p fuel e1' buf (bc_end c) lvp (Some k, acc ++ [(id, b)]) = Ret (e2, (None, (acc ++ [(id, b)]) ++ firstn k new), Err)
                     /\ bahead (fst (nth k new (0, [])%N) + 1 - be_rows e0) e0 e2 /\ (be_rows e0 <= fst (nth k new (0, [])))%N).
           { assert (EQ : e1' = e0); [|subst e1'; apply G2; lia].
             clear -G EW. unfold be_write in EW, G. destruct (encode_binary_buffer p buf c vp (be_bitmap e)) as [[[o r] [n lv]]| |]; cbn [bind] in EW, G; try discriminate.
             destruct (be_add_rows (be_rows e) n); cbn [bind] in EW, G; try discriminate. destruct (sub32 _ _ _); cbn [bind] in EW, G; try discriminate.
             cbn [fails_once fst snd] in G. injection EW as <- _ _. injection G as <- _ _. reflexivity. }
           destruct Q as (e2 & -> & (Y1 & Y2 & Y3) & LY). exists e2. cbn [firstn nth]. rewrite <- app_assoc. split; [reflexivity|]. split; [|lia].
           split; [congruence|]. split; [congruence|]. lia.
  - injection H as <- <-. exists []. rewrite app_nil_r. split; [reflexivity|]. split; [lia|]. split; [|intros k acc X; cbn in X; lia].
    intros e' d acc (R1 & R2 & R3). rewrite orb_true_r. cbn [be_loop]. rewrite EP. cbn [moved map]. rewrite app_nil_r. eexists; reflexivity.
Qed.
End Binary.

(** C55, binary columns: an encoder that holds no rows back encodes [buf] and
    would write [blocks].  If the sink rejects the [k]-th (from 0), the error is
    reported and the blocks before it have been written.  Encoding [buf] again
    writes ALL of [blocks], with identifiers moved by the rows counted for the
    first attempt, including those of the rejected block; or panics, if the
    counter cannot hold the sum. *)
Theorem C55_binary_retry_exact : forall p fuel e buf e1 blocks k acc,
  bb_len (be_remaining e) = 0 -> be_encode collect p fuel e buf [] = Ret (e1, blocks, Ok tt) -> k < length blocks ->
  let d := (fst (nth k blocks (0, [])) + 1 - be_rows e)%N in
  exists e2, be_encode fails_once p fuel e buf (Some k, acc) = Ret (e2, (None, acc ++ firstn k blocks), Err)
    /\ if (be_rows e1 + d <=? u32_max)%N then
         exists e3, be_encode fails_once p fuel e2 buf (None, acc ++ firstn k blocks)
                    = Ret (e3, (None, acc ++ firstn k blocks ++ moved d blocks), Ok tt)
       else be_encode fails_once p fuel e2 buf (None, acc ++ firstn k blocks) = Panic PExpect.
Proof.
  intros p fuel e buf e1 blocks k acc Z H Hk d. unfold be_encode in H |- *. rewrite Z in H |- *. change (0 <? 0) with false in *. cbn iota in H |- *.
  destruct (be_loop_ahead p buf fuel e 0 0 [] e1 blocks H) as (new & E & LE & G1 & G2). cbn [app] in E. subst new.
  destruct (G2 k acc Hk) as (e2 & E2 & A & LD). fold d in A. exists e2. split; [exact E2|]. destruct A as (R1 & R2 & R3). rewrite R1, Z. change (0 <? 0) with false. cbn iota.
  specialize (G1 e2 d (acc ++ firstn k blocks) (conj R1 (conj R2 R3))). destruct blocks as [|x blocks]; [cbn in Hk; lia|]. rewrite orb_false_r in G1.
  destruct (be_rows e1 + d <=? u32_max)%N; [|exact G1]. destruct G1 as (e3 & ->). exists e3. rewrite <- app_assoc. reflexivity.
Qed.
Print Assumptions C55_binary_retry_exact.

(** A nullable buffer with two blocks, the second rejected; two rows stay held
    back in the end. *)
Example C55_binary_retry_witness :
  match bb_fill true [[Some [1; 2; 3]; Some [4]; Some [5]; Some [6]; Some [7]]]%N with
  | Ret [buf] =>
      match be_encode collect Debug 9 (be_new 3 true) buf [] with
      | Ret (e1, blocks, Ok _) =>
          map fst blocks = [0; 3]%N /\ be_rows e1 = 4%N
          /\ match be_encode fails_once Debug 9 (be_new 3 true) buf (Some 1, []) with
             | Ret (e2, (None, w), Err) =>
                 w = firstn 1 blocks
                 /\ match be_encode fails_once Debug 9 e2 buf (None, w) with
                    | Ret (_, (None, w2), Ok _) => w2 = firstn 1 blocks ++ moved 4 blocks
                    | _ => False end
             | _ => False end
      | _ => False end
  | _ => False end.
Proof. vm_compute. repeat split. Qed.
