(** Property theorems C01-C06: varints and rounding helpers. *)
From Verif Require Import Base BaseProofs Spec Util Varint VarintProofs UtilProofs.
Open Scope N_scope.

(** C01.  Writing [v] into a slice of at least ten bytes replaces a prefix of
    the slice by [bs] and reports its length; appending to a vector adds the
    same [bs]; decoding [bs] followed by anything gives back [v] and that
    length. *)
Theorem C01_varint_roundtrip : forall v, v < 2 ^ 64 ->
  exists bs,
    bytes_ok bs
    /\ (forall buf, (10 <= length buf)%nat ->
          encode_varint v buf = Ret (bs ++ skipn (length bs) buf, length bs))
    /\ (forall vec, put_varint vec v = Ret (vec ++ bs))
    /\ (forall p rest, decode_varint p (bs ++ rest) = Ret (Ok (v, length bs))).
Proof.
  intros v Hv. exists (varint_bytes v). pose proof (varint_bytes_length v).
  repeat split.
  - exact (varint_bytes_ok v Hv).
  - intros buf Hb. apply encode_varint_ok; [exact Hv | lia].
  - intros vec. exact (put_varint_ok vec v Hv).
  - intros p rest. exact (decode_varint_bytes p v rest Hv).
Qed.
Print Assumptions C01_varint_roundtrip.

Example C01_witness :
  put_varint [7] 300 = Ret [7; 0xAC; 0x02]
  /\ decode_varint Debug [0xAC; 0x02; 99; 100] = Ret (Ok (300, 2%nat)).
Proof. split; vm_compute; reflexivity. Qed.

(** C02.  The length function is exact: a slice of [n] bytes is big enough iff
    [n] is at least the advertised length. *)
Theorem C02_varint_length : forall v, v < 2 ^ 64 ->
  let n := encoded_len_varint v in
  (1 <= n <= 10)%nat
  /\ (forall buf, (n <= length buf)%nat -> exists buf', encode_varint v buf = Ret (buf', n)
        /\ length buf' = length buf /\ skipn n buf' = skipn n buf)
  /\ (forall buf, (length buf < n)%nat -> encode_varint v buf = Panic PIndex)
  /\ (forall vec vec', put_varint vec v = Ret vec' -> length vec' = (length vec + n)%nat)
  /\ (forall w, w <= v -> (encoded_len_varint w <= n)%nat).
Proof.
  intros v Hv n. subst n. rewrite (encoded_len_ok v Hv).
  pose proof (varint_bytes_length v) as HL.
  repeat split; try lia.
  - intros buf Hb. eexists; split; [apply encode_varint_ok; assumption|]. split.
    + rewrite app_length, skipn_length. lia.
    + apply skipn_app_exact.
  - intros buf Hb. exact (encode_varint_short v buf Hv Hb).
  - intros vec vec' H. rewrite (put_varint_ok vec v Hv) in H. inversion H. apply app_length.
  - intros w Hw. rewrite encoded_len_ok by (change (2 ^ 64) with u64_lim in Hv; lia).
    apply varint_length_mono; assumption.
Qed.
Print Assumptions C02_varint_length.

Example C02_witness :
  encoded_len_varint 16383 = 2%nat /\ encoded_len_varint 16384 = 3%nat
  /\ encode_varint 16384 [1; 2] = Panic PIndex.
Proof. repeat split; vm_compute; reflexivity. Qed.

(** C03.  Injectivity, prefix freedom and minimality of the written bytes. *)
Theorem C03_varint_prefix_free_minimal : forall v w bv bw, v < 2 ^ 64 -> w < 2 ^ 64 ->
  put_varint [] v = Ret bv -> put_varint [] w = Ret bw ->
  (forall ext ext', bv ++ ext = bw ++ ext' -> v = w /\ ext = ext')
  /\ (forall p bs n, bytes_ok bs -> decode_varint p bs = Ret (Ok (v, n)) -> (length bv <= n)%nat).
Proof.
  intros v w bv bw Hv Hw H1 H2.
  rewrite (put_varint_ok [] v Hv) in H1. rewrite (put_varint_ok [] w Hw) in H2.
  inversion H1; inversion H2; subst. cbn [app]. split.
  - intros ext ext' E. exact (varint_bytes_inj v w ext ext' Hv Hw E).
  - intros p bs n Hok HD. exact (varint_minimal p v bs n Hv Hok HD).
Qed.
Print Assumptions C03_varint_prefix_free_minimal.

(** Overlong encodings are accepted by the decoder, so minimality is not
    vacuous. *)
Example C03_witness :
  put_varint [] 5 = Ret [5] /\ decode_varint Debug [0x85; 0x80; 0x00] = Ret (Ok (5, 3%nat)).
Proof. split; vm_compute; reflexivity. Qed.

(** C04.  Decoding an arbitrary byte string that is not cut short. *)
Theorem C04_decode_meaning : forall p bs, bytes_ok bs ->
  (forall pre b rest, bs = pre ++ b :: rest -> Forall continues pre -> ~ continues b ->
      (length pre < 10)%nat ->
      decode_varint p bs
      = Ret (Ok (groups_value (pre ++ [b]) mod 2 ^ 64, (length pre + 1)%nat)))
  /\ (forall pre rest, bs = pre ++ rest -> Forall continues pre -> length pre = 10%nat ->
      decode_varint p bs = Ret Err).
Proof.
  intros p bs Hok. split.
  - intros pre b rest -> Hc Hb Hl. apply bytes_ok_app in Hok as [Hok _].
    rewrite Nat.add_1_r. apply decode_stop; auto. unfold continues in Hb. lia.
  - intros pre rest -> Hc Hl. apply bytes_ok_app in Hok as [Hok _].
    apply decode_overrun; auto.
Qed.
Print Assumptions C04_decode_meaning.

Example C04_witness :
  decode_varint Release (repeat 0xFF 9 ++ [0x7F; 3]) = Ret (Ok (2 ^ 64 - 1, 10%nat))
  /\ decode_varint Debug (repeat 0x80 12) = Ret Err.
Proof. split; vm_compute; reflexivity. Qed.

(** C05.  "Never panics" is false: a byte string that stops in the middle of a
    varint makes the decoder index out of bounds, in both profiles. *)
Theorem C05_decode_never_panics_refuted :
  ~ (forall p bs, bytes_ok bs -> is_ret (decode_varint p bs)).
Proof.
  intros H. destruct (H Debug [0x80]) as [r Hr].
  - repeat constructor; unfold byte_ok; lia.
  - vm_compute in Hr. discriminate.
Qed.
Print Assumptions C05_decode_never_panics_refuted.

(** Exactly when it panics: fewer than ten bytes, all with the top bit set (in
    particular the empty string).  So decoding is panic free under the
    precondition documented at varint.rs:44-47. *)
Theorem C05_decode_panics_iff_truncated : forall p bs, bytes_ok bs ->
  (is_panic (decode_varint p bs) <-> Forall continues bs /\ (length bs < 10)%nat)
  /\ decode_varint p bs <> NoFuel.
Proof.
  intros p bs Hok.
  destruct (varint_cases bs) as [(pre & b & rest & -> & H1 & H2 & H3) | [(pre & rest & -> & H1 & H2) | [H1 H2]]].
  - pose proof (proj1 (proj1 (bytes_ok_app _ _) Hok)) as Hok'. rewrite decode_stop by auto.
    split; [|discriminate]. split; [intros [k Hk]; discriminate|].
    intros [Hf _]. apply Forall_app in Hf as [_ Hf]. inversion Hf; subst. unfold continues in *; lia.
  - pose proof (proj1 (proj1 (bytes_ok_app _ _) Hok)) as Hok'. rewrite decode_overrun by auto.
    split; [|discriminate]. split; [intros [k Hk]; discriminate|].
    intros [_ Hl]. rewrite app_length in Hl. lia.
  - rewrite decode_truncated by auto. split; [|discriminate]. split; auto. intros _; eexists; reflexivity.
Qed.
Print Assumptions C05_decode_panics_iff_truncated.

(** Nine bytes that continue panic, a tenth one makes it an error. *)
Example C05_witness :
  decode_varint Release (repeat 0xFF 9) = Panic PIndex /\ decode_varint Debug [] = Panic PIndex
  /\ decode_varint Release (repeat 0xFF 10) = Ret Err /\ decode_varint Debug (repeat 0xFF 8 ++ [0x7F]) = Ret (Ok (2 ^ 63 - 1, 9%nat)).
Proof. repeat split; vm_compute; reflexivity. Qed.

(** C06.  Rounding up to a power of two: the least multiple, whenever it fits;
    otherwise the checked build panics.  [ceil8] is the ceiling of [v / 8]. *)
Theorem C06_rounding : forall p num k, k < 64 ->
  (num <= 2 ^ 64 - 2 ^ k ->
     exists r, round_upto_power_of_2 p num (2 ^ k) = Ret r
       /\ num <= r /\ N.divide (2 ^ k) r /\ (forall m, num <= m -> N.divide (2 ^ k) m -> r <= m))
  /\ (num < 2 ^ 64 -> 2 ^ 64 - 2 ^ k < num ->
     round_upto_power_of_2 Debug num (2 ^ k) = Panic POverflow)
  /\ (num <= 8 * ceil8 num /\ forall n, num <= 8 * n -> ceil8 num <= n).
Proof.
  intros p num k Hk. split; [|split].
  - intros Hn. exact (round_up_ok p num k Hk Hn).
  - intros Hn Ho. exact (round_up_overflow num k Hk Hn Ho).
  - exact (ceil8_ok num).
Qed.
Print Assumptions C06_rounding.

Example C06_witness :
  round_upto_power_of_2 Debug 129 128 = Ret 256 /\ round_upto_power_of_2 Debug 128 128 = Ret 128
  /\ ceil8 9 = 2.
Proof. repeat split; vm_compute; reflexivity. Qed.
