(** Model of /repo/src/store/encoding/bitmap_rle.rs *)
From Verif Require Import Base Varint Buffers.
Open Scope nat_scope.

(** bitmap_rle.rs:22 *)
Definition MIN_RUN_LEN : nat := 3.

(** bitmap_rle.rs:25-30 *)
Inductive rle_state := RInit | RLiteral | RStartOfRun | RRun.

(** bitmap_rle.rs:33-42 *)
Record rle_enc := mk_rle {
  re_out : list N;          (* encoded_values *)
  re_byte : N;
  re_bit_pos : nat;
  re_buffer : list N;
  re_repeat : nat;          (* repeat_count *)
  re_last : N;              (* last_value *)
  re_run_start : nat;       (* run_start_pos *)
  re_state : rle_state }.

(** bitmap_rle.rs:45-56 *)
Definition rle_new : rle_enc := mk_rle [] 0 0 [] 0 0 0 RInit.

(** bitmap_rle.rs:111-119 (last_value is not reset) *)
Definition rle_clear (e : rle_enc) : rle_enc := mk_rle [] 0 0 [] 0 (re_last e) 0 RInit.

(** Assignment to [self.encoded_values], src/store/encoding/bitmap_rle.rs:179-183, 192-195. *)
Definition set_out (e : rle_enc) (out : list N) : rle_enc :=
  mk_rle out (re_byte e) (re_bit_pos e) (re_buffer e) (re_repeat e) (re_last e) (re_run_start e) (re_state e).
(** Assignment to [self.buffer], src/store/encoding/bitmap_rle.rs:125, 133, 136, 145, 153. *)
Definition set_buffer (e : rle_enc) (buffer : list N) : rle_enc :=
  mk_rle (re_out e) (re_byte e) (re_bit_pos e) buffer (re_repeat e) (re_last e) (re_run_start e) (re_state e).
(** Assignments to [repeat_count], [run_start_pos], [state], src/store/encoding/bitmap_rle.rs:129-131, 140, 146, 156, 164-166. *)
Definition set_run (e : rle_enc) (rep run_start : nat) (st : rle_state) : rle_enc :=
  mk_rle (re_out e) (re_byte e) (re_bit_pos e) (re_buffer e) rep (re_last e) run_start st.
(** src/store/encoding/bitmap_rle.rs:160. *)
Definition set_last (e : rle_enc) (last : N) : rle_enc :=
  mk_rle (re_out e) (re_byte e) (re_bit_pos e) (re_buffer e) (re_repeat e) last (re_run_start e) (re_state e).
(** Assignments to [byte] and [bit_pos], src/store/encoding/bitmap_rle.rs:61-67. *)
Definition set_bits (e : rle_enc) (byte : N) (bit_pos : nat) : rle_enc :=
  mk_rle (re_out e) byte bit_pos (re_buffer e) (re_repeat e) (re_last e) (re_run_start e) (re_state e).

(** bitmap_rle.rs:169-184.  Encoding the header into a ten byte scratch array
    and extending [encoded_values] by the written part is what [put_varint]
    does.  [(bitmap_len << 1) | 1] is [2 * bitmap_len + 1]. *)
Definition rle_emit_literal (e : rle_enc) (bitmap_len : nat) : outcome rle_enc :=
  match re_buffer e with
  | [] => Ret e
  | _ =>
      let* out := put_varint (re_out e) (2 * N.of_nat bitmap_len + 1)%N in
      let* lit := slice (re_buffer e) 0 bitmap_len in
      Ret (set_out e (out ++ lit))
  end.

(** bitmap_rle.rs:186-196 *)
Definition rle_emit_run (e : rle_enc) (run_len : nat) (run_value : N) : outcome rle_enc :=
  let* out := put_varint (re_out e) (2 * N.of_nat run_len)%N in
  Ret (set_out e (out ++ [run_value])).

(** bitmap_rle.rs:163-167 *)
Definition rle_to_literal (e : rle_enc) : rle_enc := set_run e 0 0 RLiteral.

(** bitmap_rle.rs:121-161.  [buffer.len() - 1] is reached only in state
    Literal, where the buffer is not empty; the model panics otherwise. *)
Definition rle_append (e : rle_enc) (v : N) : outcome rle_enc :=
  let* e :=
    match re_state e with
    | RInit => Ret (set_buffer (set_run e (re_repeat e) (re_run_start e) RLiteral) (re_buffer e ++ [v]))
    | RLiteral =>
        let* e := (if (re_last e =? v)%N then
                     match re_buffer e with
                     | [] => Panic POverflow
                     | _ => Ret (set_run e 2 (length (re_buffer e) - 1) RStartOfRun)
                     end
                   else Ret e) in
        Ret (set_buffer e (re_buffer e ++ [v]))
    | RStartOfRun =>
        let e := set_buffer e (re_buffer e ++ [v]) in
        if negb (re_last e =? v)%N then Ret (rle_to_literal e)
        else
          let e := set_run e (re_repeat e + 1) (re_run_start e) (re_state e) in
          if re_repeat e =? MIN_RUN_LEN then
            let* e := (if 0 <? re_run_start e then rle_emit_literal e (re_run_start e) else Ret e) in
            Ret (set_run (set_buffer e []) (re_repeat e) (re_run_start e) RRun)
          else Ret e
    | RRun =>
        if negb (re_last e =? v)%N then
          let* e := rle_emit_run e (re_repeat e) (re_last e) in
          Ret (rle_to_literal (set_buffer e (re_buffer e ++ [v])))
        else Ret (set_run e (re_repeat e + 1) (re_run_start e) (re_state e))
    end in
  Ret (set_last e v).

(** bitmap_rle.rs:59-69 *)
Definition rle_put (e : rle_enc) (set : bool) : outcome rle_enc :=
  let* byte := (if set then let* mask := idx BIT_MASK (re_bit_pos e) in Ret (N.lor (re_byte e) mask)
                else Ret (re_byte e)) in
  let bit_pos := re_bit_pos e + 1 in
  if bit_pos =? 8 then
    let* e := rle_append (set_bits e byte 0) byte in
    Ret (set_bits e 0 (re_bit_pos e))
  else Ret (set_bits e byte bit_pos).

(** bitmap_rle.rs:71-81, the loop; fuel as in [bm_append_from_loop]. *)
Fixpoint rle_put_from_loop (fuel : nat) (e : rle_enc) (src : bitmap) (items bit_pos n : nat)
  : outcome (rle_enc * nat) :=
  match fuel with
  | O => NoFuel
  | S fuel' =>
      if items <? n then
        let* bit := bm_is_set src bit_pos in
        let* e := rle_put e bit in
        rle_put_from_loop fuel' e src (items + b2n bit) (bit_pos + 1) n
      else Ret (e, bit_pos)
  end.

(** bitmap_rle.rs:71-81 *)
Definition rle_put_from (e : rle_enc) (src : bitmap) (start_pos num_valids : nat) : outcome (rle_enc * nat) :=
  rle_put_from_loop (S (bm_len src)) e src 0 start_pos num_valids.

(** bitmap_rle.rs:86-103 *)
Definition rle_flush (e : rle_enc) : outcome rle_enc :=
  let* e := (if 0 <? re_bit_pos e then rle_append e (re_byte e) else Ret e) in
  match re_state e with
  | RInit => Ret e
  | RLiteral | RStartOfRun => rle_emit_literal e (length (re_buffer e))
  | RRun => rle_emit_run e (re_repeat e) (re_last e)
  end.

(** ** Decoder *)

(** bitmap_rle.rs:200-203 *)
Inductive rle_frame := FRun (len value : N) | FBitmap (bytes : list N).

(** bitmap_rle.rs:208-214; [encoded_data] is a parameter of the functions. *)
Record rle_dec := mk_rdec {
  rd_dst : list N;          (* decoded_data *)
  rd_epos : nat;            (* encoded_data_pos *)
  rd_dpos : nat;            (* decoded_data_pos *)
  rd_bpos : N }.            (* bitmap_pos *)

(** bitmap_rle.rs:220-228 *)
Definition rdec_new (dst : list N) : rle_dec := mk_rdec dst 0 0 0.

(** bitmap_rle.rs:240-268.  [.expect] on the varint error and on a length
    beyond u32 panics. *)
Definition rle_read_frame (p : profile) (enc : list N) (d : rle_dec) : outcome (rle_dec * rle_frame) :=
  let* s := slice_from enc (rd_epos d) in
  let* r := decode_varint p s in
  match r with
  | Err => Panic PExpect
  | Ok (header, n) =>
      let epos := rd_epos d + n in
      let len := N.shiftr header 1 in
      if (len <=? u32_max)%N then
        if N.odd header then
          let* bytes := slice enc epos (epos + N.to_nat len) in
          Ret (mk_rdec (rd_dst d) (epos + N.to_nat len) (rd_dpos d) (rd_bpos d), FBitmap bytes)
        else
          let* v := idx enc epos in
          Ret (mk_rdec (rd_dst d) (epos + 1) (rd_dpos d) (rd_bpos d), FRun len v)
      else Panic PExpect
  end.

(** bitmap_rle.rs:298-299 and 276-278 *)
Definition rle_store (d : rle_dec) : outcome rle_dec :=
  let* dst := upd (rd_dst d) (rd_dpos d) (rd_bpos d) in
  Ret (mk_rdec dst (rd_epos d) (rd_dpos d + 1) (rd_bpos d)).

(** src/store/encoding/bitmap_rle.rs:277, 301. *)
Definition rle_bump (p : profile) (d : rle_dec) (n : N) : outcome rle_dec :=
  let* b := add32 p (rd_bpos d) n in
  Ret (mk_rdec (rd_dst d) (rd_epos d) (rd_dpos d) b).

(** bitmap_rle.rs:295-303, over the remaining masks *)
Fixpoint rle_decode_masks (p : profile) (masks : list N) (byte : N) (d : rle_dec) : outcome rle_dec :=
  match masks with
  | [] => Ret d
  | m :: rest =>
      let* d := (if negb (N.land byte m =? 0)%N then rle_store d else Ret d) in
      let* d := rle_bump p d 1 in
      rle_decode_masks p rest byte d
  end.

(** bitmap_rle.rs:295-303 *)
Definition rle_decode_byte (p : profile) (byte : N) (d : rle_dec) : outcome rle_dec :=
  rle_decode_masks p BIT_MASK byte d.

(** bitmap_rle.rs:289-293 *)
Fixpoint rle_decode_bitmap (p : profile) (bytes : list N) (d : rle_dec) : outcome rle_dec :=
  match bytes with
  | [] => Ret d
  | b :: rest => let* d := rle_decode_byte p b d in rle_decode_bitmap p rest d
  end.

(** bitmap_rle.rs:274-279: [n] iterations of the 0xFF loop.  Line 277 bumps
    [bitmap_pos] before line 278 bumps [decoded_data_pos]; both follow the
    store, so the order of the two does not show. *)
Fixpoint rle_decode_ones (p : profile) (n : nat) (d : rle_dec) : outcome rle_dec :=
  match n with
  | O => Ret d
  | S n' =>
      let* d := rle_store d in
      let* d := rle_bump p d 1 in
      rle_decode_ones p n' d
  end.

(** bitmap_rle.rs:282-284: [n] calls of decode_byte *)
Fixpoint rle_decode_repeat (p : profile) (n : nat) (value : N) (d : rle_dec) : outcome rle_dec :=
  match n with
  | O => Ret d
  | S n' => let* d := rle_decode_byte p value d in rle_decode_repeat p n' value d
  end.

(** bitmap_rle.rs:270-287.  [len << 3] on u32 drops the bits shifted out. *)
Definition rle_decode_run (p : profile) (len value : N) (d : rle_dec) : outcome rle_dec :=
  if (value =? 0x00)%N then rle_bump p d (shl32 len 3)
  else if (value =? 0xFF)%N then rle_decode_ones p (N.to_nat (shl32 len 3)) d
  else rle_decode_repeat p (N.to_nat len) value d.

(** bitmap_rle.rs:230-238, the loop.  Every frame takes at least one byte. *)
Fixpoint rle_decode_loop (p : profile) (fuel : nat) (enc : list N) (d : rle_dec) : outcome rle_dec :=
  match fuel with
  | O => NoFuel
  | S fuel' =>
      if rd_epos d <? length enc then
        let* r := rle_read_frame p enc d in
        let* d := match snd r with
                  | FRun len value => rle_decode_run p len value (fst r)
                  | FBitmap bytes => rle_decode_bitmap p bytes (fst r)
                  end in
        rle_decode_loop p fuel' enc d
      else Ret d
  end.

(** bitmap_rle.rs:230-238 and 306-309: the filled destination and the number of
    values decoded. *)
Definition rle_decode (p : profile) (enc dst : list N) : outcome (list N * nat) :=
  let* d := rle_decode_loop p (S (length enc)) enc (rdec_new dst) in
  Ret (rd_dst d, rd_dpos d).
