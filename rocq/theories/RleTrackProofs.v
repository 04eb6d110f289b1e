From Verif Require Import Base BaseProofs Spec Varint VarintProofs Buffers Observe BitmapProofs Rle RleProofs.
Open Scope nat_scope.
Arguments N.add : simpl never.
Arguments N.mul : simpl never.
Arguments N.of_nat : simpl never.

(** ** From bits to bytes *)

Fixpoint rle_appends (e : rle_enc) (bytes : list N) : outcome rle_enc :=
  match bytes with
  | [] => Ret e
  | b :: rest => let* e := rle_append e b in rle_appends e rest
  end.

Lemma rle_appends_snoc bytes b : forall e,
  rle_appends e (bytes ++ [b]) = let* e := rle_appends e bytes in rle_append e b.
Proof.
  induction bytes as [|x bytes IH]; intros e; cbn [app rle_appends].
  - rewrite bind_ret. destruct (rle_append e b); reflexivity.
  - rewrite bind_assoc. apply bind_ext. intros e1. apply IH.
Qed.

(** Appending a byte neither reads nor writes the partial byte. *)
Lemma rle_append_set_bits e byte pos v :
  rle_append (set_bits e byte pos) v = let* e' := rle_append e v in Ret (set_bits e' byte pos).
Proof.
  unfold rle_append. rc.
  destruct (re_state e) eqn:ES; rc.
  - reflexivity.
  - destruct (re_last e =? v)%N; [|reflexivity]. destruct (re_buffer e); reflexivity.
  - destruct (re_last e =? v)%N; cbn [negb]; [|reflexivity].
    destruct (re_repeat e + 1 =? MIN_RUN_LEN); [|reflexivity].
    destruct (0 <? re_run_start e); [|reflexivity].
    unfold rle_emit_literal. rc. destruct (re_buffer e ++ [v]); [reflexivity|].
    destruct (put_varint _ _); try reflexivity. rc. destruct (slice _ _ _); reflexivity.
  - destruct (re_last e =? v)%N; cbn [negb]; [reflexivity|].
    unfold rle_emit_run. rc. destruct (put_varint _ _); reflexivity.
Qed.

(** [e] is the encoder after the whole bytes of [bits], plus a partial byte. *)
Definition rle_track (e0 e : rle_enc) (bits : list bool) : Prop :=
  exists bytes cur ea, rle_appends e0 bytes = Ret ea /\ e = set_bits ea (bits_value cur) (length cur)
    /\ bits = bits_of_bytes bytes ++ cur /\ length cur < 8 /\ Forall (fun b => b < 256)%N bytes.

Lemma rle_track_put e0 e bits b : rle_track e0 e bits ->
  match rle_put e b with Ret e' => rle_track e0 e' (bits ++ [b]) | _ => True end.
Proof.
  intros (bytes & cur & ea & EA & EE & EB & HC & HF). unfold rle_put. rewrite EE. rc.
  assert (EV : (if b then let* mask := idx BIT_MASK (length cur) in Ret (N.lor (bits_value cur) mask)
                else Ret (bits_value cur)) = Ret (bits_value (cur ++ [b]))).
  { destruct b.
    - rewrite BIT_MASK_nth by exact HC. rewrite bind_ret. f_equal. apply lor_top.
    - rewrite bits_value_snoc, N.add_0_r. reflexivity. }
  rewrite EV, bind_ret. destruct (Nat.eqb_spec (length cur + 1) 8) as [E8|E8].
  - change (set_bits (set_bits ea (bits_value cur) (length cur)) (bits_value (cur ++ [b])) 0)
      with (set_bits ea (bits_value (cur ++ [b])) 0).
    rewrite rle_append_set_bits.
    destruct (rle_append ea (bits_value (cur ++ [b]))) as [e1| |] eqn:E1; [|exact I|exact I].
    rewrite !bind_ret. rc.
    exists (bytes ++ [bits_value (cur ++ [b])]), [], e1. rewrite rle_appends_snoc, EA, bind_ret, E1.
    repeat split; try (simpl; lia).
    + rewrite bits_of_bytes_app, app_nil_r, EB, <- app_assoc. f_equal. unfold bits_of_bytes; cbn [flat_map].
      rewrite app_nil_r. rewrite bits_of_value by (rewrite app_length; simpl; lia).
      rewrite app_length. cbn [length]. replace (8 - (length cur + 1)) with 0 by lia. cbn [repeat]. rewrite app_nil_r. reflexivity.
    + apply Forall_app. split; [exact HF|]. constructor; [|constructor].
      pose proof (bits_value_lt (cur ++ [b])) as L. rewrite app_length in L. cbn [length] in L. rewrite E8 in L. exact L.
  - exists bytes, (cur ++ [b]), ea. rewrite app_length. cbn [length]. repeat split; try lia; auto.
    rewrite EB, <- app_assoc. reflexivity.
Qed.

Lemma rle_track_puts e0 more : forall e bits, rle_track e0 e bits ->
  match rle_puts e more with Ret e' => rle_track e0 e' (bits ++ more) | _ => True end.
Proof.
  induction more as [|b more IH]; intros e bits H; cbn [rle_puts].
  - rewrite app_nil_r. exact H.
  - pose proof (rle_track_put e0 e bits b H) as H1. destruct (rle_put e b) as [e1| |]; [|exact I|exact I].
    rewrite bind_ret. specialize (IH e1 _ H1). rewrite <- app_assoc in IH. exact IH.
Qed.

(** ** Packed bytes *)

Lemma bits_value_of_byte b : (b < 256)%N -> bits_value (bits_of_byte b) = b.
Proof.
  intros H. apply N.bits_inj. intros k. rewrite <- (N2Nat.id k). rewrite bits_value_testbit.
  destruct (Nat.lt_ge_cases (N.to_nat k) 8) as [Hk|Hk].
  - unfold bits_of_byte. rewrite nth_map_seq by exact Hk. reflexivity.
  - rewrite nth_overflow by (rewrite bits_of_byte_length; exact Hk).
    destruct (N.eq_dec b 0) as [->|Hb]; [rewrite N.bits_0; reflexivity|].
    symmetry. apply N.bits_above_log2.
    assert (N.log2 b < 8)%N by (apply N.log2_lt_pow2; lia). lia.
Qed.

Lemma pack_bytes bytes : forall fuel cur, Forall (fun b => b < 256)%N bytes -> length cur < 8 ->
  length bytes + length cur <= fuel ->
  pack fuel (bits_of_bytes bytes ++ cur)
  = bytes ++ match cur with [] => [] | _ => [bits_value cur] end.
Proof.
  induction bytes as [|b bytes IH]; intros fuel cur HF HC HL.
  - cbn [bits_of_bytes flat_map app]. destruct cur as [|c cur]; [destruct fuel; reflexivity|].
    destruct fuel as [|fuel]; [simpl in HL; lia|]. cbn [pack].
    assert (E1 : firstn 8 (c :: cur) = c :: cur) by (apply firstn_all2; lia).
    assert (E2 : skipn 8 (c :: cur) = []) by (apply skipn_all2; lia).
    rewrite E1, E2. destruct fuel; reflexivity.
  - inversion HF; subst. destruct fuel as [|fuel]; [simpl in HL; lia|].
    change (bits_of_bytes (b :: bytes)) with (bits_of_byte b ++ bits_of_bytes bytes).
    rewrite <- app_assoc. assert (HB : length (bits_of_byte b) = 8) by reflexivity.
    assert (EP : forall l, pack (S fuel) (bits_of_byte b ++ l) = bits_value (firstn 8 (bits_of_byte b ++ l)) :: pack fuel (skipn 8 (bits_of_byte b ++ l))) by reflexivity.
    rewrite EP. rewrite (firstn_app_len (bits_of_byte b)) by exact (eq_sym HB).
    rewrite (skipn_app_len (bits_of_byte b)) by exact (eq_sym HB).
    rewrite bits_value_of_byte by assumption. rewrite IH by (auto; simpl in HL; lia). reflexivity.
Qed.

Lemma packed_bytes bytes cur : Forall (fun b => b < 256)%N bytes -> length cur < 8 ->
  packed (bits_of_bytes bytes ++ cur) = bytes ++ match cur with [] => [] | _ => [bits_value cur] end.
Proof.
  intros H1 H2. unfold packed. apply pack_bytes; auto. rewrite app_length, bits_of_bytes_length. lia.
Qed.

(** What flush emits, apart from the last partial byte. *)
Definition rle_finish (e : rle_enc) : outcome rle_enc :=
  match re_state e with
  | RInit => Ret e
  | RLiteral | RStartOfRun => rle_emit_literal e (length (re_buffer e))
  | RRun => rle_emit_run e (re_repeat e) (re_last e)
  end.

Definition out_of (o : outcome rle_enc) : outcome (list N) := let* e := o in Ret (re_out e).

Lemma finish_set_bits e byte pos : out_of (rle_finish (set_bits e byte pos)) = out_of (rle_finish e).
Proof.
  unfold rle_finish, rle_emit_literal, rle_emit_run, out_of. rc.
  destruct (re_state e); rc; try reflexivity.
  - destruct (re_buffer e); [reflexivity|]. destruct (put_varint _ _); try reflexivity. rc. destruct (slice _ _ _); reflexivity.
  - destruct (re_buffer e); [reflexivity|]. destruct (put_varint _ _); try reflexivity. rc. destruct (slice _ _ _); reflexivity.
  - destruct (put_varint _ _); reflexivity.
Qed.

(** Encoding bits equals appending their packed bytes and finishing. *)
Lemma rle_encode_packed e0 bits e : re_byte e0 = 0%N -> re_bit_pos e0 = 0 ->
  rle_puts e0 bits = Ret e ->
  out_of (rle_flush e) = out_of (let* e := rle_appends e0 (packed bits) in rle_finish e).
Proof.
  intros HB HP HE.
  assert (T : rle_track e0 e0 []).
  { exists [], [], e0. repeat split; simpl; try lia; auto. destruct e0; cbn in *. subst. reflexivity. }
  pose proof (rle_track_puts e0 bits e0 [] T) as T1. rewrite HE in T1. cbn [app] in T1.
  destruct T1 as (bytes & cur & ea & EA & EE & EB & HC & HF).
  rewrite EB, packed_bytes by assumption. unfold rle_flush. fold (rle_finish e).
  subst e. rc. change (mk_rle (re_out ea) (bits_value cur) (length cur) (re_buffer ea) (re_repeat ea) (re_last ea) (re_run_start ea) (re_state ea)) with (set_bits ea (bits_value cur) (length cur)).
  destruct cur as [|c cur].
  - cbn [length Nat.ltb Nat.leb]. rewrite bind_ret, app_nil_r, EA, bind_ret.
    apply finish_set_bits.
  - cbn [length Nat.ltb Nat.leb]. rewrite rle_append_set_bits. rewrite rle_appends_snoc, EA, bind_ret.
    rewrite bind_assoc. destruct (rle_append ea (bits_value (c :: cur))) as [e1| |]; try reflexivity.
    rewrite !bind_ret. apply finish_set_bits.
Qed.

(** A single long run. *)
Lemma rle_appends_run v n : forall k, 3 <= k ->
  rle_appends (mk_rle [] 0 0 [] k v 0 RRun) (repeat v n) = Ret (mk_rle [] 0 0 [] (k + n) v 0 RRun).
Proof.
  induction n as [|n IH]; intros k Hk; cbn [repeat rle_appends].
  - rewrite Nat.add_0_r. reflexivity.
  - assert (E : rle_append (mk_rle [] 0 0 [] k v 0 RRun) v = Ret (mk_rle [] 0 0 [] (k + 1) v 0 RRun)).
    { unfold rle_append. rc. rewrite N.eqb_refl. reflexivity. }
    rewrite E, bind_ret, IH by lia. do 2 f_equal. lia.
Qed.

Lemma rle_appends_equal v n : 3 <= n ->
  rle_appends rle_new (repeat v n) = Ret (mk_rle [] 0 0 [] n v 0 RRun).
Proof.
  intros H. destruct n as [|[|[|n]]]; try lia.
  change (repeat v (S (S (S n)))) with ([v; v; v] ++ repeat v n). cbn [app rle_appends].
  unfold rle_new.
  assert (E1 : rle_append (mk_rle [] 0 0 [] 0 0 0 RInit) v = Ret (mk_rle [] 0 0 [v] 0 v 0 RLiteral)) by reflexivity.
  rewrite E1, bind_ret.
  assert (E2 : rle_append (mk_rle [] 0 0 [v] 0 v 0 RLiteral) v = Ret (mk_rle [] 0 0 [v; v] 2 v 0 RStartOfRun)).
  { unfold rle_append. rc. rewrite N.eqb_refl. reflexivity. }
  rewrite E2, bind_ret.
  assert (E3 : rle_append (mk_rle [] 0 0 [v; v] 2 v 0 RStartOfRun) v = Ret (mk_rle [] 0 0 [] 3 v 0 RRun)).
  { unfold rle_append. rc. rewrite N.eqb_refl. reflexivity. }
  rewrite E3, bind_ret. apply (rle_appends_run v n 3). lia.
Qed.

(** ** Clear *)

(** Encoders that differ at most in a last value that is not used yet. *)
Definition rle_like (a b : rle_enc) : Prop :=
  a = b \/ (re_state a = RInit /\ re_state b = RInit
            /\ set_last a 0 = set_last b 0).

Definition like_outcome (a b : outcome rle_enc) : Prop :=
  match a, b with
  | Ret x, Ret y => rle_like x y
  | Panic j, Panic k => j = k
  | NoFuel, NoFuel => True
  | _, _ => False
  end.

Lemma like_refl o : like_outcome o o.
Proof. destruct o; cbn; auto. left; reflexivity. Qed.

Lemma like_append a b v : rle_like a b -> rle_append a v = rle_append b v.
Proof.
  intros [->|(H1 & H2 & H3)]; [reflexivity|].
  destruct a, b; cbn in *. inversion H3; subst. reflexivity.
Qed.

Lemma like_put a b x : rle_like a b -> like_outcome (rle_put a x) (rle_put b x).
Proof.
  intros [->|(H1 & H2 & H3)]; [apply like_refl|].
  destruct a as [o by_ bp bu rp la rs st], b as [o' by' bp' bu' rp' la' rs' st']; cbn in *. inversion H3; subst.
  unfold rle_put. rc.
  set (m := if x then _ else _). destruct m as [byte| |]; [|reflexivity|exact I]. rc.
  destruct (_ =? 8).
  - rewrite (like_append (mk_rle o' byte 0 bu' rp' la rs' RInit) (mk_rle o' byte 0 bu' rp' la' rs' RInit));
      [apply like_refl|]. right. repeat split.
  - cbn. right. repeat split.
Qed.

Lemma like_puts bits : forall a b, rle_like a b -> like_outcome (rle_puts a bits) (rle_puts b bits).
Proof.
  induction bits as [|x bits IH]; intros a b H; [exact H|]. cbn [rle_puts].
  pose proof (like_put a b x H) as HP. destruct (rle_put a x), (rle_put b x); cbn [like_outcome] in HP; try contradiction; subst; cbn [bind];
    [apply IH; exact HP|reflexivity|exact I].
Qed.

Lemma like_flush a b : rle_like a b -> out_of (rle_flush a) = out_of (rle_flush b).
Proof.
  intros [->|(H1 & H2 & H3)]; [reflexivity|].
  destruct a as [o by_ bp bu rp la rs st], b as [o' by' bp' bu' rp' la' rs' st']; cbn in *. inversion H3; subst.
  unfold rle_flush. rc. destruct (0 <? bp').
  - rewrite (like_append (mk_rle o' by' bp' bu' rp' la rs' RInit) (mk_rle o' by' bp' bu' rp' la' rs' RInit)); [reflexivity|].
    right. repeat split.
  - reflexivity.
Qed.

Lemma clear_like e : rle_like (rle_clear e) rle_new.
Proof. right. repeat split. Qed.

(** ** Windows *)

Lemma put_from_loop_ok w : forall fuel src sbits before after e items n,
  reads_as src sbits -> sbits = before ++ w ++ after -> ends_set w ->
  items + count_true w = n -> length w < fuel ->
  rle_put_from_loop fuel e src items (length before) n
  = let* e' := rle_puts e w in Ret (e', length before + length w).
Proof.
  induction w as [|x w IH]; intros fuel src sbits before after e items n HR HS HE HN HF.
  - destruct fuel as [|fuel]; [simpl in HF; lia|]. cbn [rle_put_from_loop].
    change (count_true []) with 0 in HN. destruct (Nat.ltb_spec items n); [lia|].
    cbn [length rle_puts]. rewrite bind_ret, Nat.add_0_r. reflexivity.
  - destruct fuel as [|fuel]; [simpl in HF; lia|]. cbn [rle_put_from_loop].
    destruct (ends_set_cons x w HE) as [HE' Hpos].
    destruct (Nat.ltb_spec items n); [|lia].
    rewrite (reads_is_set src sbits before x (w ++ after) HR HS). rewrite bind_ret.
    rewrite count_true_cons in HN. cbn [rle_puts]. rewrite bind_assoc. apply bind_ext. intros d1.
    pose proof (IH fuel src sbits (before ++ [x]) after d1 (items + b2n x) n HR) as E.
    rewrite app_length in E. cbn [length] in E. rewrite E; auto.
    + cbn [length]. apply bind_ext. intros d2. do 2 f_equal. lia.
    + rewrite HS. rewrite <- app_assoc. reflexivity.
    + lia.
    + simpl in HF; lia.
Qed.

Lemma put_from_puts e src sbits start n w :
  reads_as src sbits -> valid_window sbits start n w ->
  rle_put_from e src start n = let* e' := rle_puts e w in Ret (e', start + length w).
Proof.
  intros HR (before & after & HS & Hst & HC & HE). unfold rle_put_from. subst start.
  eapply put_from_loop_ok; eauto.
  destruct HR as [HL _]. rewrite HL, HS, !app_length. lia.
Qed.

Lemma put_from_loop_short rest : forall fuel src sbits before e items n,
  reads_as src sbits -> sbits = before ++ rest ->
  items + count_true rest < n -> length rest < fuel ->
  (forall w b, w ++ [b] = firstn (length w + 1) rest -> exists e1, rle_puts e (w ++ [b]) = Ret e1) ->
  is_panic (rle_put_from_loop fuel e src items (length before) n).
Proof.
  induction rest as [|x rest IH]; intros fuel src sbits before e items n HR HS HN HF HP.
  - destruct fuel as [|fuel]; [simpl in HF; lia|]. cbn [rle_put_from_loop].
    change (count_true []) with 0 in HN. destruct (Nat.ltb_spec items n); [|lia].
    destruct HR as [_ HR]. rewrite HR. subst sbits. rewrite app_nil_r, Nat.ltb_irrefl.
    eexists; reflexivity.
  - destruct fuel as [|fuel]; [simpl in HF; lia|]. cbn [rle_put_from_loop].
    rewrite count_true_cons in HN.
    destruct (Nat.ltb_spec items n); [|lia].
    rewrite (reads_is_set src sbits before x rest HR HS). rewrite bind_ret.
    destruct (HP [] x eq_refl) as [e1 E1]. cbn [app rle_puts] in E1.
    destruct (rle_put e x) as [e2| |] eqn:E2; try discriminate. cbn [bind] in E1. injection E1 as <-.
    rewrite bind_ret.
    replace (length before + 1) with (length (before ++ [x])) by (rewrite app_length; reflexivity).
    eapply IH; eauto.
    + rewrite <- app_assoc. exact HS.
    + lia.
    + simpl in HF; lia.
    + intros w b Hw. destruct (HP (x :: w) b) as [e3 E3].
      * cbn [app length Nat.add firstn]. rewrite <- Hw. reflexivity.
      * cbn [app rle_puts] in E3. rewrite E2 in E3. cbn [bind] in E3. exists e3. exact E3.
Qed.

Lemma put_from_short e src sbits start n ebits :
  rle_bits e ebits -> (2 * N.of_nat (length ebits + length sbits) + 3 < u64_lim)%N ->
  reads_as src sbits -> count_true (skipn start sbits) < n ->
  is_panic (rle_put_from e src start n).
Proof.
  intros HE HL HR HC. unfold rle_put_from.
  destruct (Nat.le_gt_cases start (length sbits)) as [Hs|Hs].
  - replace start with (length (firstn start sbits)) by (rewrite firstn_length; lia).
    eapply put_from_loop_short with (rest := skipn start sbits); eauto.
    + symmetry. apply firstn_skipn.
    + destruct HR as [HL' _]. rewrite HL', skipn_length. lia.
    + intros w b Hw.
      assert (length (w ++ [b]) <= length sbits).
      { rewrite Hw, firstn_length, skipn_length. lia. }
      destruct (rle_puts_ok (w ++ [b]) e ebits HE) as (e1 & E1 & _); [lia|]. exists e1; exact E1.
  - cbn [rle_put_from_loop]. rewrite skipn_all2 in HC by lia. change (count_true []) with 0 in HC.
    destruct (Nat.ltb_spec 0 n); [|lia]. destruct HR as [_ HR]. rewrite HR.
    destruct (Nat.ltb_spec start (length sbits)); [lia|]. eexists; reflexivity.
Qed.

(** ** Flushing twice *)

(** An encoder with something pending. *)
Definition rle_live (m : nat) (e : rle_enc) : Prop :=
  re_state e <> RInit /\ (re_state e <> RRun -> re_buffer e <> [])
  /\ length (re_buffer e) <= m /\ (re_state e <> RLiteral -> re_repeat e <= m)
  /\ (re_state e = RStartOfRun -> re_run_start e <= length (re_buffer e)).

Lemma snoc_nonempty {A} (l : list A) x : l ++ [x] <> [].
Proof. destruct l; discriminate. Qed.

Lemma frame_bytes_nonempty f : frame_bytes f <> [].
Proof.
  destruct f; cbn [frame_bytes]; intros E.
  - apply app_eq_nil in E. destruct E. discriminate.
  - apply app_eq_nil in E. destruct E as [E _].
    pose proof (varint_bytes_length (2 * N.of_nat (length bytes) + 1)) as HL. rewrite E in HL. simpl in HL. lia.
Qed.

Lemma live_finish m e : rle_live m e -> (2 * N.of_nat m + 1 < u64_lim)%N ->
  exists e' extra, rle_finish e = Ret e' /\ re_out e' = re_out e ++ extra /\ extra <> []
    /\ rle_live m e' /\ re_byte e' = re_byte e /\ re_bit_pos e' = re_bit_pos e.
Proof.
  intros H HL. assert (K := H). destruct K as (H1 & H2 & H3 & H4 & H5). unfold rle_finish.
  destruct (re_state e) eqn:ES; [congruence| | |].
  - rewrite emit_literal_ok; [|apply H2; discriminate|lia|lia].
    do 2 eexists. split; [reflexivity|]. rc. split; [reflexivity|]. split; [apply frame_bytes_nonempty|]. auto.
  - rewrite emit_literal_ok; [|apply H2; discriminate|lia|lia].
    do 2 eexists. split; [reflexivity|]. rc. split; [reflexivity|]. split; [apply frame_bytes_nonempty|]. auto.
  - rewrite emit_run_ok by (specialize (H4 ltac:(discriminate)); lia).
    do 2 eexists. split; [reflexivity|]. rc. split; [reflexivity|]. split; [apply frame_bytes_nonempty|]. auto.
Qed.

Ltac live_done := split; [solve [reflexivity | symmetry; apply app_nil_r]|]; split; [|auto];
  unfold rle_live; rc; repeat rewrite app_length; cbn [length] in *;
  repeat split; intros; solve [congruence | discriminate | apply snoc_nonempty | lia].

Lemma live_append m e v : rle_live m e -> (2 * N.of_nat m + 1 < u64_lim)%N -> 2 <= m ->
  exists e' extra, rle_append e v = Ret e' /\ re_out e' = re_out e ++ extra
    /\ rle_live (m + 1) e' /\ re_byte e' = re_byte e /\ re_bit_pos e' = re_bit_pos e.
Proof.
  intros (H1 & H2 & H3 & H4 & H5) HL Hm. unfold rle_append. destruct (re_state e) eqn:ES; [congruence| | |].
  - destruct (re_last e =? v)%N.
    + destruct (re_buffer e) as [|b l] eqn:EB; [exfalso; apply H2; [discriminate|reflexivity]|].
      rc. do 2 eexists. split; [reflexivity|]. rc. rewrite EB. live_done.
    + rc. do 2 eexists. split; [reflexivity|]. rc. live_done.
  - specialize (H5 eq_refl). specialize (H4 ltac:(discriminate)). rc. destruct (re_last e =? v)%N; cbn [negb].
    + destruct (re_repeat e + 1 =? MIN_RUN_LEN) eqn:EM.
      * destruct (Nat.ltb_spec 0 (re_run_start e)).
        -- rewrite emit_literal_ok; [|apply snoc_nonempty|rc; rewrite app_length; lia|lia].
           rc. do 2 eexists. split; [reflexivity|]. rc. live_done.
        -- rc. do 2 eexists. split; [reflexivity|]. rc. live_done.
      * rc. do 2 eexists. split; [reflexivity|]. rc. live_done.
    + rc. do 2 eexists. split; [reflexivity|]. rc. live_done.
  - specialize (H4 ltac:(discriminate)). destruct (re_last e =? v)%N; cbn [negb].
    + rc. do 2 eexists. split; [reflexivity|]. rc. live_done.
    + rewrite emit_run_ok by lia. rc. do 2 eexists. split; [reflexivity|]. rc. live_done.
Qed.

Lemma inv_live e bytes : rle_inv e bytes -> re_state e <> RInit ->
  rle_live (length bytes + 2) e.
Proof.
  intros (fs & pend & Hb & _ & HP & _ & _) HS. unfold rle_pending in HP.
  assert (HL : length bytes = length (exp_of fs) + length pend) by (rewrite Hb, app_length; reflexivity).
  unfold rle_live. destruct (re_state e) eqn:ES; [congruence| | |].
  - destruct HP as [-> [pre E]]. repeat split; try congruence; try lia. intros _. rewrite E. apply snoc_nonempty.
  - destruct HP as (-> & E2 & pre & E & EL). repeat split; try congruence; try lia.
    + intros _. rewrite E. destruct pre; discriminate.
    + intros _. rewrite E, app_length. lia.
  - destruct HP as (E & -> & H3). rewrite repeat_length in HL. rewrite E. repeat split; try congruence; simpl; lia.
Qed.


Lemma flush_live m e : rle_live m e -> (2 * N.of_nat m + 5 < u64_lim)%N -> 2 <= m ->
  exists e' extra, rle_flush e = Ret e' /\ re_out e' = re_out e ++ extra /\ extra <> [] /\ rle_live (m + 1) e'.
Proof.
  intros H HL Hm. unfold rle_flush.
  assert (M : forall a b x, a <= b -> rle_live a x -> rle_live b x).
  { intros a b x Hab (A1 & A2 & A3 & A4 & A5). repeat split; auto; try lia. }
  destruct (0 <? re_bit_pos e).
  - destruct (live_append m e (re_byte e) H ltac:(lia) Hm) as (e1 & x1 & E1 & O1 & L1 & _). rewrite E1, bind_ret.
    destruct (live_finish (m + 1) e1 L1 ltac:(lia)) as (e2 & x2 & E2 & O2 & N2 & L2 & _).
    exists e2, (x1 ++ x2). split; [exact E2|]. rewrite O2, O1, <- app_assoc. split; [reflexivity|]. split; [|exact L2].
    intros E. apply app_eq_nil in E. destruct E. contradiction.
  - rewrite bind_ret. destruct (live_finish m e H ltac:(lia)) as (e2 & x2 & E2 & O2 & N2 & L2 & _).
    exists e2, x2. split; [exact E2|]. split; [exact O2|]. split; [exact N2|]. eapply M; [|exact L2]. lia.
Qed.

Lemma bits_live e bits : rle_bits e bits -> bits <> [] -> (2 * N.of_nat (length bits) + 20 < u64_lim)%N ->
  exists e', rle_flush e = Ret e' /\ rle_live (length bits + 3) e'.
Proof.
  intros (bytes & cur & HI & HB & HC & HP & HV) HN HL.
  assert (HLb : length bytes <= length bits) by (rewrite HB, app_length, bits_of_bytes_length; lia).
  assert (M : forall a b x, a <= b -> rle_live a x -> rle_live b x).
  { intros a b x Hab (A1 & A2 & A3 & A4 & A5). repeat split; auto; try lia. }
  assert (X : exists e1, (if 0 <? re_bit_pos e then rle_append e (re_byte e) else Ret e) = Ret e1
              /\ rle_live (length bits + 3) e1).
  { destruct (Nat.ltb_spec 0 (re_bit_pos e)).
    - destruct (rle_append_ok e bytes (re_byte e) HI ltac:(lia)) as (e1 & E1 & I1 & _ & _ & S1).
      exists e1. split; [exact E1|]. eapply M; [|apply (inv_live e1 _ I1 S1)]. rewrite app_length. cbn [length]. lia.
    - exists e. split; [reflexivity|]. eapply M; [|apply (inv_live e bytes HI)]; [lia|].
      intros ES. destruct HI as (fs & pend & Hb & _ & HPd & _ & HIn). unfold rle_pending in HPd. rewrite ES in HPd.
      destruct HPd as [-> _]. rewrite (HIn ES) in Hb. subst bytes. destruct cur; [|simpl in HC; lia]. apply HN. exact HB. }
  destruct X as (e1 & E1 & L1). unfold rle_flush. rewrite E1, bind_ret.
  destruct (live_finish _ e1 L1 ltac:(lia)) as (e2 & x2 & E2 & _ & _ & L2 & _).
  exists e2. split; [exact E2|exact L2].
Qed.
