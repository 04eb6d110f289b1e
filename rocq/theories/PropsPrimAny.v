(** Property C29 without a restriction on the width of the values or on the
    build: columns without nulls (raw/primitive_enc.rs). *)
From Verif Require Import Base BaseProofs Spec SpecRows Varint VarintProofs Buffers Observe BitmapProofs BuffersProofs
  Rle Sink PrimEnc ReadBlock ObserveEnc RowsProofs BlockProofs PrimEncProofs PrimRunProofs PropsPrim PropsPrimRows
  PropsPrimIds.
Open Scope nat_scope.

(** The blocks that a sequence of buffers without nulls produces, and the rows
    held back at the end.  [cap] values of [sz] bytes are the least number that
    makes up the block size [B].  A buffer that arrives while rows are held back
    - is used up to what is missing for one block, if the held back rows are not
      larger than a block;
    - cannot be handled ([None]) if they are and overflows are detected;
    - is used completely if they are and overflows go unnoticed.
    The held back rows then become a block only if their NUMBER reaches [B]; in
    that case the rest of the buffer is used as if it had come alone, otherwise
    it is dropped. *)
Fixpoint col_any {T} (checked : bool) (sz : nat) (B : N) (cap : nat) (held : list (option T)) (bufs : list (list (option T)))
  : list (list (option T)) * option (list (option T)) :=
  match bufs with
  | [] => ([], Some held)
  | b :: rest =>
      match held with
      | [] => let r := col_any checked sz B cap (rest_of cap b) rest in (cut cap b ++ fst r, snd r)
      | _ =>
          let larger := (B <? N.of_nat (length held * sz))%N in
          if larger && checked then ([], None)
          else
            let k := if larger then length b else min (cap - length held) (length b) in
            let held' := held ++ firstn k b in
            if (N.of_nat (length held') <? B)%N then col_any checked sz B cap held' rest
            else
              let more := skipn k b in
              let r := col_any checked sz B cap (rest_of cap more) rest in
              (held' :: cut cap more ++ fst r, snd r)
      end
  end.

Definition checks (p : profile) : bool := match p with Debug => true | Release => false end.

Lemma take_firstn {T} (rows : list (option T)) : Forall (fun r => is_some r = true) rows -> forall k,
  take_vals k rows = firstn k rows /\ drop_vals k rows = skipn k rows.
Proof.
  induction 1 as [|r rows H _ IH]; intros [|k]; try (split; reflexivity).
  destruct r as [v|]; [|discriminate H]. cbn. destruct (IH k) as [-> ->]. split; reflexivity.
Qed.

Lemma allowed_false {T} (rows : list (option T)) : rows_allowed false rows -> Forall (fun r => is_some r = true) rows.
Proof. intros [H|H]; [discriminate H|exact H]. Qed.

Lemma counted_false {T} (ws : list (list (option T))) : forall pos, counted false pos ws = map (fun w => (length w, w)) ws.
Proof. induction ws as [|w ws IH]; intros pos; cbn; [reflexivity|]. rewrite IH. reflexivity. Qed.

Section Any.
Context {S : Type} (wr : sink_fn S) (p : profile) (sz : nat).

Let plain (ws : list (list (option N))) := map (fun w => (length w, w)) ws.

(** A buffer that arrives while rows are held back. *)
Lemma pe_encode_held B cap e R rows buf b s : 0 < sz -> fits sz B cap -> (0 < B < 2 ^ 32)%N -> (N.of_nat sz < 2 ^ 31)%N ->
  pe_inv B false e R rows -> R <> [] -> pb_holds buf false b ->
  (N.of_nat (length R + length b) <= 2 ^ 32 - 2)%N ->
  let larger := (B <? N.of_nat (length R * sz))%N in
  let k := if larger then length b else min (cap - length R) (length b) in
  if larger && checks p then pe_encode wr p sz (Datatypes.S (pb_len buf)) e buf s = Panic POverflow
  else if (N.of_nat (length (R ++ firstn k b)) <? B)%N then
    exists e', pe_encode wr p sz (Datatypes.S (pb_len buf)) e buf s = Ret (e', s, Ok tt)
      /\ pe_inv B false e' (R ++ firstn k b) rows
  else
    match emits wr sz false rows (plain ((R ++ firstn k b) :: cut cap (skipn k b))) s with
    | Ret (rows', s', Ok _) => exists e', pe_encode wr p sz (Datatypes.S (pb_len buf)) e buf s = Ret (e', s', Ok tt)
        /\ pe_inv B false e' (rest_of cap (skipn k b)) rows'
    | Ret (rows', s', Err) => exists e', pe_encode wr p sz (Datatypes.S (pb_len buf)) e buf s = Ret (e', s', Err)
    | Panic x => pe_encode wr p sz (Datatypes.S (pb_len buf)) e buf s = Panic x
    | NoFuel => False
    end.
Proof.
  intros Hs HF HB Hz HI HN HH HL larger k.
  change (2 ^ 32)%N with 4294967296%N in *. change (2 ^ 31)%N with 2147483648%N in *.
  change (4294967296 - 2)%N with 4294967294%N in *.
  assert (HA : rows_allowed false b) by (eapply holds_allowed; eauto).
  assert (HAR : rows_allowed false R) by apply HI.
  pose proof (allowed_false_num _ HA) as NB. pose proof (allowed_false_num _ HAR) as NR.
  pose proof (pe_inv_len _ _ _ _ _ HI) as [HL0 HN0]. rewrite NR in HL0.
  assert (HP : 0 < length R) by (destruct R; [congruence|cbn; lia]).
  assert (LB : pb_len buf = length b) by (apply pb_holds_counts in HH; rewrite <- NB; tauto).
  assert (HM : pe_min e = B) by apply HI.
  assert (Hc : 0 < cap) by (destruct HF; destruct cap; cbn in *; lia).
  assert (Hcap : (N.of_nat cap < 4294967296)%N) by (destruct HF; nia).
  assert (KB : k <= length b) by (unfold k; destruct larger; lia).
  destruct (larger && checks p) eqn:LC.
  { apply andb_true_iff in LC. destruct LC as [L C]. destruct p; [|discriminate C].
    unfold larger in L. apply N.ltb_lt in L. eapply pe_encode_overfull; eauto. rewrite NR. exact L. }
  destruct (take_firstn b (allowed_false b HA) k) as [TK DK].
  set (w := firstn k b) in *.
  assert (EB : b = [] ++ w ++ skipn k b) by (symmetry; apply firstn_skipn).
  assert (HW : num_vals w = k) by (rewrite <- TK, num_take, NB; lia).
  assert (LW : length w = k) by (unfold w; rewrite firstn_length; lia).
  assert (HWE : ends_some w) by (rewrite <- TK; apply take_ends; lia).
  assert (HAW : rows_allowed false w) by (rewrite <- TK; apply allowed_take; exact HA).
  assert (CH : exists want, sub64 p B (N.of_nat (length R * sz)) = Ret want /\ pe_chunk p sz (length b) 0 want = Ret k).
  { unfold larger in *. destruct (N.ltb_spec B (N.of_nat (length R * sz))) as [L|L].
    - cbn [andb] in LC. unfold k. clear k KB TK DK w EB HW LW HWE HAW.
      destruct p; [discriminate LC|]. unfold sub64, usub.
      destruct (N.leb_spec (N.of_nat (length R * sz)) B); [lia|]. eexists; split; [reflexivity|].
      assert (BIG : (9223372036854775808 <= B + u64_lim - N.of_nat (length R * sz))%N).
      { assert (N.of_nat (length R * sz) <= 9223372036854775808)%N by (rewrite Nat2N.inj_mul; nia). unfold u64_lim. lia. }
      assert (SML : (B + u64_lim - N.of_nat (length R * sz) < u64_lim)%N) by lia.
      set (want := (B + u64_lim - N.of_nat (length R * sz))%N) in *. clearbody want.
      unfold pe_chunk. cbn zeta.
      assert (Q : (4294967296 <= want / N.of_nat sz)%N).
      { apply N.div_le_lower_bound; [lia|]. nia. }
      assert (Q2 : (want / N.of_nat sz + (if want mod N.of_nat sz =? 0 then 0 else 1) < u64_lim)%N).
      { pose proof (N.div_mod want (N.of_nat sz) ltac:(lia)) as D.
        set (q := (want / N.of_nat sz)%N) in *. set (r := (want mod N.of_nat sz)%N) in *. 
        destruct (N.eqb_spec r 0); nia. }
      rewrite add64_ok by lia. rewrite bind_ret. f_equal.
      set (f := if (want mod N.of_nat sz =? 0)%N then 0%N else 1%N) in *. clearbody f.
      set (q := (want / N.of_nat sz)%N) in *. clearbody q.
      destruct (N.ltb_spec (N.of_nat (length b)) (N.of_nat 0 + (q + f))); lia.
    - rewrite sub64_ok by exact L. eexists; split; [reflexivity|].
      assert (HF2 : fits sz (B - N.of_nat (length R * sz)) (cap - length R)).
      { destruct HF as [F1 F2]. split; rewrite Nat.mul_sub_distr_r; nia. }
      rewrite (pe_chunk_ok p sz _ 0 _ _ Hs HF2) by (unfold u64_lim; lia). unfold k. f_equal. lia. }
  destruct CH as (want & E1 & E2).
  assert (HH2 := HH). rewrite EB in HH2.
  pose proof (pb_append_from_eq (pe_remaining e) buf false [] w (skipn k b) HH2 HN0 HWE) as PA.
  fold (num_vals w) in PA. cbn [somes length Nat.add] in PA. rewrite HW, HL0 in PA.
  specialize (PA ltac:(unfold u32_max; lia)).
  destruct (pe_inv_extend B false e R rows w HI HAW HWE) as (b' & EA & I'). rewrite EA, bind_ret in PA.
  pose proof (pe_inv_len _ _ _ _ _ I') as [HL1 HN1].
  assert (NRW : num_vals (R ++ w) = length (R ++ w)) by (rewrite num_vals_app, app_length; lia).
  rewrite NRW in HL1.
  unfold pe_encode. rewrite HL0. destruct (Nat.ltb_spec 0 (length R)); [|lia]. cbn zeta.
  rewrite HM, E1, bind_ret, LB, E2, bind_ret, PA, bind_ret. cbn [fst snd]. rewrite HL1. cbn [pe_min pe_set_remaining].
  rewrite HM.
  destruct (N.ltb_spec (N.of_nat (length (R ++ w))) B) as [LT|GE].
  { eexists; split; [reflexivity|exact I']. }
  unfold plain. cbn [map]. change ((?x, ?y) :: ?l) with ([(x, y)] ++ l). rewrite emits_app.
  set (e1 := pe_set_remaining e b') in *.
  assert (HE1 : ends_some (R ++ w)) by apply I'.
  assert (HNW : R ++ w <> []) by (destruct R; [congruence|discriminate]).
  pose proof (pe_inv_holds _ _ _ _ _ I') as HH1.
  pose proof (pe_write_ok wr p sz B false e1 (R ++ w) rows (pe_remaining e1) [] (R ++ w) [] 0 s Hs I') as PW.
  cbn [app] in PW. rewrite app_nil_r in PW. specialize (PW HH1 HE1 HNW).
  change (2 ^ 32)%N with 4294967296%N in PW. rewrite NRW in PW.
  assert (LRW : length (R ++ w) <= length R + length b) by (rewrite app_length; lia).
  specialize (PW ltac:(lia) ltac:(unfold u64_lim; rewrite Nat2N.inj_mul; nia) ltac:(discriminate)).
  change (num_vals (@nil (option N))) with 0 in PW. cbn [length Nat.add] in PW.
  unfold pe_write_remaining. rewrite HL1.
  destruct (emits wr sz false rows [(length (R ++ w), R ++ w)] s) as [[[rows1 s1] [[]|]]|x|]; cbn [bind]; [| | |contradiction].
  - destruct PW as (e2 & -> & I2 & R2). rewrite bind_ret.
    assert (I3 : pe_inv B false (pe_set_remaining e2 (pb_clear (pe_remaining e2))) [] rows1).
    { destruct I2 as (_ & _ & _ & J4 & J5). split; [|split; [right; constructor|split; [left; reflexivity|split; assumption]]].
      cbn [pb_append_rows pe_remaining pe_set_remaining]. f_equal. unfold pb_clear, pb_new.
      rewrite R2. unfold pb_is_nullable in HN1. destruct (pb_validity (pe_remaining e1)); [discriminate HN1|reflexivity]. }
    assert (LS : length (skipn k b) = length b - k) by apply skipn_length.
    pose proof (pe_loop_ok wr p sz B cap false Hs HF Hc Hcap Hz (Datatypes.S (length b)) (skipn k b) w
                  (pe_set_remaining e2 (pb_clear (pe_remaining e2))) rows1 buf k s1 I3) as PL.
    cbn [app] in EB. rewrite <- EB in PL. change (2 ^ 32)%N with 4294967296%N in PL.
    specialize (PL HH ltac:(lia) ltac:(discriminate)).
    assert (NS : num_vals (skipn k b) < Datatypes.S (length b)).
    { rewrite <- DK, num_drop. lia. }
    specialize (PL NS). rewrite HW, counted_false in PL.
    destruct (emits wr sz false rows1 _ s1) as [[[rows2 s2] [[]|]]|x|]; [| | |contradiction].
    + destruct PL as (e3 & -> & I4). eexists; split; [reflexivity|exact I4].
    + destruct PL as (e3 & -> & I4). eexists; reflexivity.
    + rewrite PL. reflexivity.
  - destruct PW as (e2 & -> & I2 & R2). rewrite bind_ret. eexists; reflexivity.
  - rewrite PW. reflexivity.
Qed.

Lemma pe_encodes_any B cap : 0 < sz -> fits sz B cap -> (0 < B < 2 ^ 32)%N -> (N.of_nat sz < 2 ^ 31)%N ->
  forall bufs rowss e held rows s,
  Forall2 (fun b r => pb_holds b false r) bufs rowss ->
  pe_inv B false e held rows ->
  (N.of_nat (length held + sum_len rowss) <= 2 ^ 32 - 2)%N ->
  let run := col_any (checks p) sz B cap held rowss in
  match emits wr sz false rows (plain (fst run)) s with
  | Ret (rows', s', Ok _) =>
      match snd run with
      | Some held' => exists e', pe_encodes wr p sz e bufs s = Ret (e', s', Ok tt)
          /\ pe_inv B false e' held' rows' /\ length held' <= length held + sum_len rowss
      | None => pe_encodes wr p sz e bufs s = Panic POverflow
      end
  | Ret (rows', s', Err) => exists e', pe_encodes wr p sz e bufs s = Ret (e', s', Err)
  | Panic k => pe_encodes wr p sz e bufs s = Panic k
  | NoFuel => False
  end.
Proof.
  intros Hs HF HB Hz. assert (Hc : 0 < cap) by (destruct HF; destruct cap; cbn in *; lia).
  change (2 ^ 32)%N with 4294967296%N in *. change (4294967296 - 2)%N with 4294967294%N.
  assert (Hc32 : (N.of_nat cap < 4294967296)%N) by (destruct HF; nia).
  induction bufs as [|b bufs IH]; intros rowss e held rows s HH HI HL; inversion HH as [|? r ? rowss' Hb Hbs]; subst; clear HH; cbn [col_any pe_encodes].
  - cbn [fst snd plain map emits]. exists e. split; [reflexivity|]. split; [exact HI|lia].
  - assert (EL : sum_len (r :: rowss') = length r + sum_len rowss') by (unfold sum_len; cbn [concat]; apply app_length).
    rewrite EL in *.
    assert (LB : pb_len b = num_vals r) by (apply pb_holds_counts in Hb; tauto).
    destruct held as [|x held0].
    + cbn [length Nat.add] in *.
      pose proof (pe_encode_empty wr p sz B cap false (Datatypes.S (pb_len b)) e rows b r s) as PE.
      change (2 ^ 32)%N with 4294967296%N in PE. change (4294967296 - 2)%N with 4294967294%N in PE.
      assert (B1 : (N.of_nat (length r) <= 4294967294)%N) by lia. assert (B2 : num_vals r < Datatypes.S (pb_len b)) by lia.
      specialize (PE Hs HF Hc Hc32 Hz HI Hb B1 B2). rewrite counted_false in PE.
      cbn [fst snd]. unfold plain in *. rewrite map_app, emits_app. unfold sink_fn in *.
      destruct (emits wr sz false rows (map _ (cut cap r)) s) as [[[rows1 s1] res1]|k|]; cbn [bind]; [| |contradiction].
      * destruct PE as (e1 & -> & I1). rewrite bind_ret. destruct res1 as [[]|].
        -- pose proof (rest_length cap r Hc) as R3.
           specialize (IH rowss' e1 (rest_of cap r) rows1 s1 Hbs I1 ltac:(lia)). cbn zeta in IH.
           destruct (emits wr sz false rows1 _ s1) as [[[rows2 s2] [[]|]]|k|]; auto.
           destruct (snd (col_any _ _ _ _ _ _)) as [held'|]; auto.
           destruct IH as (e' & E & I & L). exists e'. split; [exact E|]. split; [exact I|lia].
        -- eexists; reflexivity.
      * rewrite PE. reflexivity.
    + set (held := x :: held0) in *. assert (HN : held <> []) by discriminate. clearbody held. cbn zeta.
      pose proof (pe_encode_held B cap e held rows b r s Hs HF) as PH.
      change (2 ^ 32)%N with 4294967296%N in PH. change (4294967296 - 2)%N with 4294967294%N in PH.
      specialize (PH HB Hz HI HN Hb ltac:(lia)). cbn zeta in PH.
      destruct ((B <? N.of_nat (length held * sz))%N && checks p).
      { cbn [fst snd plain map emits]. rewrite PH. reflexivity. }
      set (k := if (B <? N.of_nat (length held * sz))%N then length r else min (cap - length held) (length r)) in *.
      clearbody k.
      assert (LF : length (held ++ firstn k r) <= length held + length r).
      { rewrite app_length, firstn_length. lia. }
      destruct (N.ltb_spec (N.of_nat (length (held ++ firstn k r))) B) as [LT|GE].
      * destruct PH as (e1 & -> & I1). rewrite bind_ret.
        specialize (IH rowss' e1 _ rows s Hbs I1 ltac:(lia)). cbn zeta in IH.
        destruct (emits wr sz false rows _ s) as [[[rows2 s2] [[]|]]|z|]; auto.
        destruct (snd (col_any _ _ _ _ _ _)) as [held'|]; auto.
        destruct IH as (e' & E & I & L). exists e'. split; [exact E|]. split; [exact I|lia].
      * cbn [fst snd]. unfold plain in *. rewrite app_comm_cons, map_app, emits_app.
        destruct (emits wr sz false rows (map _ (_ :: cut cap (skipn k r))) s) as [[[rows1 s1] [[]|]]|z|]; cbn [bind];
          [| | |contradiction].
        -- destruct PH as (e1 & -> & I1). rewrite bind_ret.
           pose proof (rest_length cap (skipn k r) Hc) as R3. rewrite skipn_length in R3.
           specialize (IH rowss' e1 _ rows1 s1 Hbs I1 ltac:(lia)). cbn zeta in IH.
           destruct (emits wr sz false rows1 _ s1) as [[[rows2 s2] [[]|]]|z|]; auto.
           destruct (snd (col_any _ _ _ _ _ _)) as [held'|]; auto.
           destruct IH as (e' & E & I & L). exists e'. split; [exact E|]. split; [exact I|lia].
        -- destruct PH as (e1 & ->). rewrite bind_ret. eexists; reflexivity.
        -- rewrite PH. reflexivity.
Qed.
End Any.

(** The blocks including the one a flush writes. *)
Definition with_held {T} (ws : list (list T)) (held : list T) : list (list T) :=
  ws ++ match held with [] => [] | _ => [held] end.

Lemma all_trim {T} (r : list (option T)) : Forall (fun x => is_some x = true) r -> trim r = r.
Proof.
  intros H. unfold trim. destruct (take_firstn r H (num_vals r)) as [-> _].
  rewrite (allowed_false_num r) by (right; exact H). apply firstn_all.
Qed.

Lemma cut_nonempty {T} cap (r : list (option T)) : 0 < cap -> Forall (fun w => w <> []) (cut cap r).
Proof.
  intros Hc. pose proof (windows_spec (S (num_vals r)) cap r) as W. fold (cut cap r) in W.
  eapply Forall_impl; [|exact W]. cbn. intros w [A _] ->. unfold num_vals in A. cbn in A. lia.
Qed.

(** What a run writes and holds back comes from its buffers. *)
Lemma col_any_from {T} checked sz B cap : 0 < cap -> forall rowss (held : list (option T)),
  Forall (Forall (fun x => is_some x = true)) rowss -> Forall (fun x => is_some x = true) held ->
  let run := col_any checked sz B cap held rowss in
  let held' := match snd run with Some h => h | None => [] end in
  Forall (fun w => w <> []) (fst run)
  /\ length (concat (fst run)) + length held' <= length held + sum_len rowss
  /\ incl (concat (fst run)) (held ++ concat rowss) /\ incl held' (held ++ concat rowss).
Proof.
  intros Hc. induction rowss as [|r rowss IH]; intros held HA HH; cbn [col_any]; cbn zeta.
  - cbn [fst snd concat length]. split; [constructor|]. split; [lia|]. split; [intros x []|].
    rewrite app_nil_r. apply incl_refl.
  - inversion HA as [|? ? HR HA']; subst.
    assert (EL : sum_len (r :: rowss) = length r + sum_len rowss) by (unfold sum_len; cbn [concat]; apply app_length).
    rewrite EL.
    assert (CUT : forall b : list (option T), Forall (fun x => is_some x = true) b -> concat (cut cap b) ++ rest_of cap b = b).
    { intros b Hb. rewrite cut_rest by exact Hc. apply all_trim. exact Hb. }
    assert (NEXT : forall b : list (option T), Forall (fun x => is_some x = true) b -> Forall (fun x => is_some x = true) (rest_of cap b)).
    { intros b Hb. rewrite <- (CUT b Hb), Forall_app in Hb. tauto. }
    destruct held as [|x held0].
    + specialize (IH (rest_of cap r) HA' (NEXT r HR)). cbn zeta in IH.
      cbn [fst snd].
      set (run := col_any checked sz B cap (rest_of cap r) rowss) in *. clearbody run.
      set (held' := match snd run with Some h => h | None => [] end) in *. clearbody held'.
      destruct IH as (I1 & I2 & I3 & I4). cbn [fst snd].
      pose proof (CUT r HR) as E. pose proof (f_equal (@length _) E) as EN. rewrite app_length in EN.
      assert (IN : incl (rest_of cap r ++ concat rowss) ([] ++ concat (r :: rowss))).
      { cbn [app concat]. intros y Hy. apply in_app_iff. apply in_app_iff in Hy. destruct Hy as [Hy|Hy]; [left|auto].
        rewrite <- E, in_app_iff. auto. }
      split; [apply Forall_app; split; [apply cut_nonempty; exact Hc|exact I1]|].
      rewrite concat_app, app_length. cbn [length]. split; [lia|]. split.
      * apply incl_app; [|eapply incl_tran; eauto]. cbn [app concat]. intros y Hy. apply in_app_iff. left.
        rewrite <- E, in_app_iff. auto.
      * eapply incl_tran; eauto.
    + set (held := x :: held0) in *. assert (HN : held <> []) by discriminate. clearbody held.
      destruct ((B <? N.of_nat (length held * sz))%N && checked).
      { cbn [fst snd concat length]. split; [constructor|]. split; [lia|]. split; intros y []. }
      set (k := if (B <? N.of_nat (length held * sz))%N then length r else min (cap - length held) (length r)). clearbody k.
      assert (HR2 := HR). rewrite <- (firstn_skipn k r), Forall_app in HR2. destruct HR2 as [HR1 HR2].
      pose proof (f_equal (@length _) (firstn_skipn k r)) as EN. rewrite app_length in EN.
      assert (INF : incl (held ++ firstn k r) (held ++ concat (r :: rowss))).
      { apply incl_app; [apply incl_appl, incl_refl|]. apply incl_appr. cbn [concat]. apply incl_appl.
        rewrite <- (firstn_skipn k r) at 2. apply incl_appl, incl_refl. }
      destruct (N.ltb_spec (N.of_nat (length (held ++ firstn k r))) B) as [LT|GE].
      * specialize (IH (held ++ firstn k r) HA' ltac:(apply Forall_app; auto)). cbn zeta in IH.
        set (run := col_any checked sz B cap _ rowss) in *. clearbody run.
        set (held' := match snd run with Some h => h | None => [] end) in *. clearbody held'.
        destruct IH as (I1 & I2 & I3 & I4). rewrite app_length in I2.
        assert (IN : incl ((held ++ firstn k r) ++ concat rowss) (held ++ concat (r :: rowss))).
        { apply incl_app; [exact INF|]. apply incl_appr. cbn [concat]. apply incl_appr, incl_refl. }
        split; [exact I1|]. split; [lia|]. split; eapply incl_tran; eauto.
      * specialize (IH (rest_of cap (skipn k r)) HA' (NEXT _ HR2)). cbn zeta in IH. cbn [fst snd concat].
        set (run := col_any checked sz B cap _ rowss) in *. clearbody run.
        set (held' := match snd run with Some h => h | None => [] end) in *. clearbody held'.
        destruct IH as (I1 & I2 & I3 & I4). cbn [fst snd concat].
        pose proof (CUT _ HR2) as E. pose proof (f_equal (@length _) E) as EN2. rewrite app_length in EN2.
        assert (SK : incl (skipn k r) (held ++ concat (r :: rowss))).
        { apply incl_appr. cbn [concat]. apply incl_appl. rewrite <- (firstn_skipn k r) at 2. apply incl_appr, incl_refl. }
        assert (IN : incl (rest_of cap (skipn k r) ++ concat rowss) (held ++ concat (r :: rowss))).
        { apply incl_app; [|apply incl_appr; cbn [concat]; apply incl_appr, incl_refl].
          eapply incl_tran; [|exact SK]. rewrite <- E at 2. apply incl_appr, incl_refl. }
        split.
        { constructor; [|apply Forall_app; split; [apply cut_nonempty; exact Hc|exact I1]].
          intros E0. apply app_eq_nil in E0. destruct E0. congruence. }
        rewrite concat_app, !app_length. split; [lia|]. split; [|eapply incl_tran; eauto].
        apply incl_app; [exact INF|]. apply incl_app; [|eapply incl_tran; eauto].
        eapply incl_tran; [|exact SK]. rewrite <- E at 2. apply incl_appl, incl_refl.
Qed.

(** C29 for every width, block size and build: exactly the blocks of [col_any]
    and the held back rows are written, with the right row identifiers; the only
    failure is the detected overflow. *)
Theorem C29_no_nulls_exact :
  forall p sz B cap bufs rowss,
  0 < sz -> (N.of_nat sz < 2 ^ 31)%N -> (0 < B < 2 ^ 32)%N ->
  (B <= N.of_nat (cap * sz) < B + N.of_nat sz)%N ->
  Forall2 (fun b rows => pb_holds b false rows) bufs rowss ->
  (total_rows rowss <= 2 ^ 32 - 8)%N -> Forall (fit sz) rowss ->
  let run := col_any (checks p) sz B cap [] rowss in
  match snd run with
  | Some held =>
      exists written, pe_column p sz B false bufs = Ret (written, Ok tt)
        /\ reads_blocks p sz false written (with_held (fst run) held)
        /\ ids_right (map fst written) (with_held (fst run) held)
  | None => pe_column p sz B false bufs = Panic POverflow
  end.
Proof.
  intros p sz B cap bufs rowss Hs Hz HB HF HH HT HV.
  change (2 ^ 32 - 8)%N with 4294967288%N in HT. unfold total_rows in HT. fold (sum_len rowss) in HT.
  assert (Hc : 0 < cap) by (destruct HF; destruct cap; cbn in *; lia).
  assert (HA : Forall (Forall (fun x => is_some x = true)) rowss).
  { clear -HH. induction HH as [|b r bufs rowss H _ IH]; constructor; auto. apply allowed_false. eapply holds_allowed; eauto. }
  pose proof (pe_encodes_any collect p sz B cap Hs HF HB Hz bufs rowss (pe_new B false) [] 0%N [] HH (pe_inv_new B false)) as PE.
  change (2 ^ 32 - 2)%N with 4294967294%N in PE. cbn [length Nat.add] in PE.
  specialize (PE ltac:(clear -HT; lia)). cbn zeta in PE |- *.
  pose proof (col_any_from (checks p) sz B cap Hc rowss [] HA ltac:(constructor)) as CF. cbn zeta in CF.
  set (run := col_any (checks p) sz B cap [] rowss) in *. destruct CF as (F1 & F2 & F3 & F4).
  cbn [length app Nat.add] in F2, F3, F4.
  assert (TOT : forall ws : list (list (option N)), total (map fst (map (fun w => (length w, w)) ws)) = N.of_nat (length (concat ws))).
  { induction ws as [|w ws IH]; [reflexivity|]. cbn [map fst total fold_right concat]. rewrite app_length.
    fold (total (map fst (map (fun w => (length w, w)) ws))). rewrite IH. lia. }
  assert (LEN : forall ws : list (list (option N)), map fst (map (fun w => (length w, w)) ws) = map (@length _) ws).
  { intros ws. rewrite map_map. apply map_ext. reflexivity. }
  rewrite emits_collect, TOT, N.add_0_l in PE.
  destruct (N.leb_spec (N.of_nat (length (concat (fst run)))) u32_max) as [L|L]; [|clear -L F2 HT; unfold u32_max in *; lia].
  cbn [orb app] in PE. unfold pe_column, pe_finish.
  destruct (snd run) as [held|]; [|rewrite PE; reflexivity].
  destruct PE as (e' & -> & I & LH). rewrite bind_ret.
  assert (HS : num_vals held <= length held) by apply somes_length_le.
  pose proof (pe_flush_ok collect p sz B false e' held (N.of_nat (length (concat (fst run))))
                (labelled sz false 0 (map (fun w => (length w, w)) (fst run))) Hs) as PF.
  specialize (PF ltac:(change (2 ^ 31)%N with 2147483648%N in Hz; unfold u64_lim; nia) I).
  change (2 ^ 32)%N with 4294967296%N in PF. specialize (PF ltac:(lia)).
  set (last := match held with [] => [] | _ => [held] end).
  assert (EL : match held with [] => [] | _ => [(length held, held)] end = map (fun w => (length w, w)) last)
    by (destruct held; reflexivity).
  rewrite EL, emits_collect, TOT in PF.
  assert (LL : length (concat last) = length held) by (unfold last; destruct held; [reflexivity|cbn [concat]; rewrite app_nil_r; reflexivity]).
  rewrite LL in PF.
  destruct (N.leb_spec (N.of_nat (length (concat (fst run))) + N.of_nat (length held)) u32_max) as [L2|L2];
    [|clear -L2 F2 HT; unfold u32_max in *; lia].
  cbn [orb] in PF. destruct PF as (e2 & -> & _). rewrite bind_ret.
  pose proof (labelled_app sz false (map (fun w => (length w, w)) (fst run)) 0 (map (fun w => (length w, w)) last)) as LA.
  rewrite TOT, N.add_0_l in LA. rewrite <- LA, <- map_app. fold last. unfold with_held. fold last.
  set (ws := fst run ++ last) in *.
  assert (NE : Forall (fun w => w <> []) ws).
  { apply Forall_app. split; [exact F1|]. unfold last. destruct held; constructor; [discriminate|constructor]. }
  assert (INC : incl (concat ws) (concat rowss)).
  { unfold ws. rewrite concat_app. apply incl_app; [exact F3|].
    replace (concat last) with held by (unfold last; destruct held; [reflexivity|cbn [concat]; rewrite app_nil_r; reflexivity]). exact F4. }
  assert (LW : length (concat ws) <= sum_len rowss) by (unfold ws; rewrite concat_app, app_length, LL; lia).
  eexists. split; [reflexivity|]. split.
  - unfold reads_blocks. rewrite read_labelled; [rewrite map_map; reflexivity|exact Hs|exact Hz|].
    rewrite map_map. cbn [snd]. rewrite map_id. apply Forall_forall. intros w Hw.
    assert (IW : incl w (concat rowss)).
    { intros y Hy. apply INC. apply in_concat. exists w. auto. }
    assert (AW : Forall (fun x => is_some x = true) w).
    { apply Forall_forall. intros y Hy. apply IW in Hy. apply in_concat in Hy. destruct Hy as (r & Hr & Hy).
      rewrite Forall_forall in HA. specialize (HA r Hr). rewrite Forall_forall in HA. auto. }
    change (2 ^ 32 - 8)%N with 4294967288%N.
    split; [|split; [right; exact AW|split]].
    + rewrite Forall_forall in NE. specialize (NE w Hw). destruct (exists_last NE) as (w0 & y & ->). right.
      apply Forall_app in AW. destruct AW as [_ AW]. inversion AW as [|? ? Y _]; subst. destruct y as [v|]; [|discriminate Y]. eauto.
    + assert (length w <= length (concat ws)); [|lia]. apply in_split in Hw. destruct Hw as (l1 & l2 & ->).
      rewrite concat_app. cbn [concat]. rewrite !app_length. lia.
    + unfold fit. apply Forall_forall. intros v Hv.
      assert (In (Some v) w) as Hv2.
      { clear -Hv. induction w as [|[u|] w IH]; cbn in *; [contradiction| |right; auto].
        destruct Hv as [->|Hv]; auto. }
      apply IW in Hv2. apply in_concat in Hv2. destruct Hv2 as (r & Hr & Hv2). rewrite Forall_forall in HV. specialize (HV r Hr).
      unfold fit in HV. rewrite Forall_forall in HV. apply HV. clear -Hv2.
      induction r as [|[u|] r IH]; cbn in *; [contradiction| |].
      * destruct Hv2 as [[= ->]|H]; auto.
      * destruct Hv2 as [H|H]; [discriminate H|auto].
  - rewrite labelled_ids, LEN. destruct (ids_of_lengths ws NE 0%N) as [X1 X2]. split; [exact X1|].
    intros i id Hi. apply X2 in Hi. lia.
Qed.
Print Assumptions C29_no_nulls_exact.

(** A build without overflow checks and a block size that is no multiple of the
    width: four values of 4 bytes with a block size of 6 bytes are two blocks;
    single values are then collected until their number, not their size, is 6. *)
Example C29_no_nulls_witness :
  let v (n : N) := Some n in
  col_any false 4 6 2 [] [[v 1; v 2; v 3]; [v 4; v 5]; [v 6]; [v 7; v 8]; [v 9; v 10; v 11]]%N
  = ([[v 1; v 2]; [v 3; v 4; v 6; v 7; v 8; v 9; v 10; v 11]]%N, Some [])
  /\ col_any true 4 6 2 [] [[v 1; v 2; v 3]; [v 4; v 5]; [v 6]]%N = ([[v 1; v 2]]%N, None)
  /\ match pe_column_rows Release 4 6 false [[v 1; v 2; v 3]; [v 4; v 5]; [v 6]; [v 7; v 8]; [v 9; v 10; v 11]]%N with
     | Ret (written, Ok _) => map fst written = [1; 9]%N
         /\ reads_blocks Release 4 false written [[v 1; v 2]; [v 3; v 4; v 6; v 7; v 8; v 9; v 10; v 11]]%N
     | _ => False end
  /\ pe_column_rows Debug 4 6 false [[v 1; v 2; v 3]; [v 4; v 5]; [v 6]]%N = Panic POverflow.
Proof. vm_compute. repeat split. Qed.

(** Values of one byte are the one case in which a column without nulls keeps
    every row, however it is cut into buffers. *)
Lemma col_any_bytes {T} checked B cap : 0 < cap -> N.of_nat cap = B -> forall rowss (held : list (option T)),
  Forall (Forall (fun x => is_some x = true)) rowss -> length held < cap ->
  exists ws held', col_any checked 1 B cap held rowss = (ws, Some held')
    /\ concat ws ++ held' = held ++ concat rowss /\ length held' < cap /\ Forall (fun w => length w = cap) ws.
Proof.
  intros Hc HB. induction rowss as [|r rowss IH]; intros held HA HL; cbn [col_any]; cbn zeta.
  - eexists _, _. split; [reflexivity|]. cbn [concat app]. rewrite app_nil_r. auto.
  - inversion HA as [|? ? HR HA']; subst.
    assert (CUT : forall b : list (option T), Forall (fun x => is_some x = true) b ->
      concat (cut cap b) ++ rest_of cap b = b /\ length (rest_of cap b) < cap /\ Forall (fun w => length w = cap) (cut cap b)).
    { intros b Hb. pose proof (cut_rest cap b Hc) as E. rewrite all_trim in E by exact Hb. split; [exact E|].
      rewrite <- E, Forall_app in Hb. destruct Hb as [H1 H2]. pose proof (rest_spec cap b Hc) as [R1 _].
      rewrite (allowed_false_num (rest_of cap b)) in R1 by (right; exact H2). split; [exact R1|].
      pose proof (windows_spec (S (num_vals b)) cap b) as W. fold (cut cap b) in W. rewrite Forall_forall in *.
      intros w Hw. destruct (W w Hw) as [<- _]. symmetry. apply allowed_false_num. right. apply Forall_forall.
      intros y Hy. apply H1. apply in_concat. exists w. auto. }
    destruct held as [|x held0].
    + destruct (CUT r HR) as (E & L & W). destruct (IH (rest_of cap r) HA' L) as (ws & held' & -> & I1 & I2 & I3).
      cbn [fst snd]. eexists _, _. split; [reflexivity|]. split; [|split; [exact I2|apply Forall_app; auto]].
      rewrite concat_app, <- app_assoc, I1, app_assoc, E. reflexivity.
    + set (held := x :: held0) in *. clearbody held. rewrite Nat.mul_1_r.
      destruct (N.ltb_spec (N.of_nat cap) (N.of_nat (length held))); [lia|]. cbn [andb].
      set (k := min (cap - length held) (length r)).
      assert (LF : length (firstn k r) = k) by (rewrite firstn_length; lia).
      rewrite app_length, LF.
      destruct (N.ltb_spec (N.of_nat (length held + k)) (N.of_nat cap)) as [LT|GE].
      * destruct (IH (held ++ firstn k r) HA') as (ws & held' & E & I1 & I2 & I3); [rewrite app_length, LF; lia|].
        rewrite E. eexists _, _. split; [reflexivity|]. split; [|auto]. rewrite I1, <- app_assoc. cbn [concat]. do 2 f_equal.
        apply firstn_all2. lia.
      * assert (HR2 : Forall (fun x => is_some x = true) (skipn k r)).
        { rewrite <- (firstn_skipn k r), Forall_app in HR. tauto. }
        destruct (CUT _ HR2) as (E & L & W). destruct (IH _ HA' L) as (ws & held' & -> & I1 & I2 & I3).
        cbn [fst snd]. eexists _, _. split; [reflexivity|]. split; [|split; [exact I2|]].
        -- cbn [concat]. rewrite concat_app, <- !app_assoc, I1, (app_assoc (concat (cut _ _))), E.
           f_equal. rewrite app_assoc, firstn_skipn. reflexivity.
        -- constructor; [rewrite app_length, LF; lia|apply Forall_app; auto].
Qed.

Theorem C29_one_byte :
  forall p B bufs rowss,
  (0 < B < 2 ^ 32)%N ->
  Forall2 (fun b rows => pb_holds b false rows) bufs rowss ->
  (total_rows rowss <= 2 ^ 32 - 8)%N -> Forall (fit 1) rowss ->
  exists written ws last, pe_column p 1 B false bufs = Ret (written, Ok tt)
    /\ reads_blocks p 1 false written (with_held ws last) /\ ids_right (map fst written) (with_held ws last)
    /\ concat ws ++ last = concat rowss
    /\ Forall (fun w => N.of_nat (length w) = B) ws /\ (N.of_nat (length last) < B)%N.
Proof.
  intros p B bufs rowss HB HH HT HV.
  assert (HA : Forall (Forall (fun x => is_some x = true)) rowss).
  { clear -HH. induction HH as [|b r bufs rowss H _ IH]; constructor; auto. apply allowed_false. eapply holds_allowed; eauto. }
  set (cap := N.to_nat B). assert (EC : N.of_nat cap = B) by apply N2Nat.id.
  pose proof (C29_no_nulls_exact p 1 B cap bufs rowss ltac:(lia) ltac:(reflexivity) HB) as X.
  specialize (X ltac:(rewrite Nat.mul_1_r, EC; lia) HH HT HV). cbn zeta in X.
  destruct (col_any_bytes (checks p) B cap ltac:(lia) EC rowss [] HA ltac:(cbn; lia)) as (ws & last & E & I1 & I2 & I3).
  rewrite E in X. cbn [fst snd] in X. destruct X as (written & X1 & X2 & X3).
  exists written, ws, last. split; [exact X1|]. split; [exact X2|]. split; [exact X3|]. split; [exact I1|]. split; [|lia].
  eapply Forall_impl; [|exact I3]. cbn. intros w <-. exact EC.
Qed.
Print Assumptions C29_one_byte.

Example C29_one_byte_witness :
  match pe_column_rows Release 1 2 false [[Some 1]; [Some 2; Some 3; Some 4; Some 5]; []; [Some 6; Some 7]]%N with
  | Ret (written, Ok _) => map fst written = [1; 3; 5; 6]%N
      /\ reads_blocks Release 1 false written [[Some 1; Some 2]; [Some 3; Some 4]; [Some 5; Some 6]; [Some 7]]%N
  | _ => False end.
Proof. vm_compute. split; reflexivity. Qed.

(** With nulls this fails: after the held back rows were written their validity
    bits are not reset, so the nulls that are held back next are read as values
    and the rows are cut short. *)
Theorem C29_one_byte_nullable_refuted :
  ~ (forall p B rowss written,
       (0 < B < 2 ^ 32)%N -> Forall (fit 1) rowss -> Forall ends_some rowss ->
       pe_column_rows p 1 B true rowss = Ret (written, Ok tt) ->
       exists ws, reads_blocks p 1 true written ws /\ concat ws = concat rowss)
  /\ match pe_column_rows Debug 1 2 true [[Some 1]; [Some 2; None; Some 3]]%N with
     | Ret (written, Ok _) => reads_blocks Debug 1 true written [[Some 1; Some 2]; [Some 3]]%N
     | _ => False end.
Proof.
  split; [|vm_compute; reflexivity]. intros H.
  destruct (pe_column_rows Debug 1 2 true [[Some 1]; [Some 2; None; Some 3]]%N) as [[written [[]|]]| |] eqn:E;
    pose proof E as E0; vm_compute in E; try discriminate E.
  injection E as <-.
  specialize (H Debug 2%N [[Some 1]; [Some 2; None; Some 3]]%N _ ltac:(split; reflexivity)
    ltac:(repeat constructor)
    ltac:(apply Forall_cons; [right; exists [], 1%N; reflexivity|apply Forall_cons; [right; exists [Some 2%N; None], 3%N; reflexivity|apply Forall_nil]]) E0).
  destruct H as (ws & H1 & H2). unfold reads_blocks in H1. vm_compute in H1.
  destruct ws as [|w1 [|w2 [|w3 ws]]]; try discriminate H1. cbn [map] in H1. injection H1 as <- <-. discriminate H2.
Qed.
Print Assumptions C29_one_byte_nullable_refuted.
