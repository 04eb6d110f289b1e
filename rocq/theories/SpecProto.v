(** A reader of protobuf messages, following the description of the format
    (https://protobuf.dev/programming-guides/encoding) and the schema
    /repo/src/store/segment_metadata.proto, not the code that writes them. *)
From Verif Require Import Base Metadata.
Open Scope N_scope.

(** Groups of seven bits, least significant first; the high bit says that more
    follow. *)
Fixpoint read_varint (bs : list N) : option (N * list N) :=
  match bs with
  | [] => None
  | b :: rest =>
      if b <? 128 then Some (b, rest)
      else match read_varint rest with
           | Some (v, rest') => Some (b - 128 + 128 * v, rest')
           | None => None
           end
  end.

Definition take_bytes (n : N) (bs : list N) : option (list N * list N) :=
  if n <=? N.of_nat (length bs) then Some (firstn (N.to_nat n) bs, skipn (N.to_nat n) bs) else None.

(** What a field holds: a number, or bytes. *)
Inductive wire := WInt (v : N) | WBytes (bytes : list N).

(** A record: field number, wire type and payload. *)
Definition read_record (bs : list N) : option (N * wire * list N) :=
  match read_varint bs with
  | None => None
  | Some (key, rest) =>
      let number := key / 8 in
      if number =? 0 then None
      else
        match key mod 8 with
        | 0 => match read_varint rest with Some (v, rest') => Some (number, WInt v, rest') | None => None end
        | 1 => match take_bytes 8 rest with Some (v, rest') => Some (number, WBytes v, rest') | None => None end
        | 2 => match read_varint rest with
               | Some (n, rest') =>
                   match take_bytes n rest' with Some (v, rest'') => Some (number, WBytes v, rest'') | None => None end
               | None => None
               end
        | 5 => match take_bytes 4 rest with Some (v, rest') => Some (number, WBytes v, rest') | None => None end
        | _ => None
        end
  end.

(** A message: records up to the end.  Every record has at least two bytes, so
    the length is enough fuel. *)
Fixpoint read_records (fuel : nat) (bs : list N) : option (list (N * wire)) :=
  match bs with
  | [] => Some []
  | _ =>
      match fuel with
      | O => None
      | S fuel' =>
          match read_record bs with
          | Some (number, w, rest) =>
              match read_records fuel' rest with Some more => Some ((number, w) :: more) | None => None end
          | None => None
          end
      end
  end.

Definition read_message (bs : list N) : option (list (N * wire)) := read_records (length bs) bs.

(** All the numbers, or all the byte strings, of a field, in order. *)
Fixpoint ints_of (number : N) (records : list (N * wire)) : list N :=
  match records with
  | [] => []
  | (k, WInt v) :: rest => if k =? number then v :: ints_of number rest else ints_of number rest
  | _ :: rest => ints_of number rest
  end.

Fixpoint bytes_of_field (number : N) (records : list (N * wire)) : list (list N) :=
  match records with
  | [] => []
  | (k, WBytes v) :: rest => if k =? number then v :: bytes_of_field number rest else bytes_of_field number rest
  | _ :: rest => bytes_of_field number rest
  end.

(** A number or a string: the last one counts, 0 and "" if there is none. *)
Definition int_field (number : N) (records : list (N * wire)) : N := last (ints_of number records) 0.
Definition bytes_field (number : N) (records : list (N * wire)) : list N := last (bytes_of_field number records) [].

(** A message that occurs several times is merged, that is, read as if the
    contents were concatenated. *)
Definition message_field {A} (read : list N -> option A) (number : N) (records : list (N * wire)) : option (option A) :=
  match bytes_of_field number records with
  | [] => Some None
  | parts => option_map Some (read (concat parts))
  end.

(** The last record with one of the field numbers of a oneof, as its number and
    bytes. *)
Fixpoint oneof_field (numbers : list N) (records : list (N * wire)) : option (N * list N) :=
  match records with
  | [] => None
  | (k, w) :: rest =>
      match oneof_field numbers rest, w with
      | Some r, _ => Some r
      | None, WBytes b => if existsb (N.eqb k) numbers then Some (k, b) else None
      | None, WInt _ => None
      end
  end.

(** A map: entries with a key as field 1 and a value as field 2; of several
    entries with the same key, the last one counts. *)
Fixpoint assoc {A} (k : list N) (entries : list (list N * A)) : option A :=
  match entries with
  | [] => None
  | (k', v) :: rest => if list_eq_dec N.eq_dec k k' then Some v else assoc k rest
  end.

Definition without {A} (k : list N) (entries : list (list N * A)) : list (list N * A) :=
  filter (fun e => if list_eq_dec N.eq_dec k (fst e) then false else true) entries.

Fixpoint read_entries {A} (read : list N -> option A) (parts : list (list N)) (sofar : list (list N * A))
  : option (list (list N * A)) :=
  match parts with
  | [] => Some sofar
  | part :: rest =>
      match read_message part with
      | None => None
      | Some records =>
          let k := bytes_field 1 records in
          match read (concat (bytes_of_field 2 records)) with
          | Some v => read_entries read rest (without k sofar ++ [(k, v)])
          | None => None
          end
      end
  end.

Definition map_field {A} (read : list N -> option A) (number : N) (records : list (N * wire))
  : option (list (list N * A)) := read_entries read (bytes_of_field number records) [].

(** The messages of the schema. *)
Definition read_range (bs : list N) : option range :=
  match read_message bs with
  | Some rs => Some (mkrange (int_field 1 rs) (int_field 2 rs))
  | None => None
  end.

Definition read_ranged (bs : list N) : option (option range) :=
  match read_message bs with Some rs => message_field read_range 1 rs | None => None end.

Definition read_column_meta (bs : list N) : option column_meta :=
  match read_message bs with
  | None => None
  | Some rs =>
      Some (mkcmeta (bytes_field 1 rs) (int_field 2 rs) (negb (int_field 3 rs =? 0)) (int_field 4 rs) (int_field 8 rs)
                    (int_field 5 rs) (int_field 6 rs) (int_field 7 rs) (int_field 9 rs) (int_field 10 rs)
                    (match oneof_field [11; 12; 13; 14] rs with
                     | Some (11, _) => Some Int32Stats
                     | Some (12, _) => Some Int64Stats
                     | Some (13, _) => Some Float64Stats
                     | Some (14, _) => Some StringStats
                     | _ => None
                     end))
  end.

Definition read_column_layout (bs : list N) : option column_layout :=
  match read_message bs with
  | None => None
  | Some rs =>
      let column_index :=
        match oneof_field [1; 2] rs with
        | Some (1, _) => Some (Some CNoIndex)
        | Some (2, b) => option_map (fun r => Some (CStringIndexV1 r)) (read_ranged b)
        | _ => Some None
        end in
      let encoder :=
        match oneof_field [4; 5; 6] rs with
        | Some (4, _) => Some (Some EPlain)
        | Some (5, b) => option_map (fun r => Some (EBinaryDict r)) (read_ranged b)
        | Some (6, _) => Some (Some ESnappy)
        | _ => Some None
        end in
      match message_field read_ranged 3 rs, column_index, encoder with
      | Some block_index, Some column_index, Some encoder =>
          Some (mkclayout (option_map mkbil block_index) column_index encoder)
      | _, _, _ => None
      end
  end.

Definition read_segment_meta (bs : list N) : option segment_meta :=
  match read_message bs with
  | None => None
  | Some rs =>
      match map_field read_column_meta 8 rs with
      | None => None
      | Some columns =>
          Some (mksmeta (bytes_field 1 rs) (bytes_field 2 rs) (bytes_field 3 rs) (int_field 4 rs) (int_field 5 rs)
                        (int_field 6 rs) (int_field 7 rs) columns)
      end
  end.

Definition read_metadata (bs : list N) : option metadata :=
  match read_message bs with
  | None => None
  | Some rs =>
      match message_field read_segment_meta 1 rs, map_field read_column_layout 2 rs with
      | Some segment, Some layouts => Some (mkmeta segment layouts)
      | _, _ => None
      end
  end.
