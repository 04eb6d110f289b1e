(** Model of how segment_writer.rs names its files, on top of the library code it
    uses: crate base64 0.13 ([encode_config] with [URL_SAFE_NO_PAD]) and std's
    [Path::join] on Unix.  A name is the list of its bytes. *)
From Verif Require Import Base Io.
Open Scope N_scope.

(** base64 tables.rs [URL_SAFE_ENCODE]: A-Z, a-z, 0-9, '-', '_' *)
Definition b64_char (v : N) : N :=
  if v <? 26 then 65 + v
  else if v <? 52 then 97 + (v - 26)
  else if v <? 62 then 48 + (v - 52)
  else if v =? 62 then 45
  else 95.

(** base64 [encode_config] without padding: three bytes become four characters
    of six bits each, most significant first; a rest of one or two bytes becomes
    two or three.
    Called at src/store/segment_writer.rs:145-146. *)
Fixpoint b64_encode (bytes : list N) : list N :=
  match bytes with
  | a :: b :: c :: rest =>
      b64_char (a / 4) :: b64_char (a mod 4 * 16 + b / 16) :: b64_char (b mod 16 * 4 + c / 64) :: b64_char (c mod 64)
      :: b64_encode rest
  | [a; b] => [b64_char (a / 4); b64_char (a mod 4 * 16 + b / 16); b64_char (b mod 16 * 4)]
  | [a] => [b64_char (a / 4); b64_char (a mod 4 * 16)]
  | [] => []
  end.

(** segment_writer.rs:110-111 "dat" and "idx" *)
Definition data_file_ext : list N := [100; 97; 116].
Definition index_file_ext : list N := [105; 100; 120].

(** segment_writer.rs:145-149 *)
Definition data_file_name (segment_id : list N) : list N := b64_encode segment_id ++ [46] ++ data_file_ext.
Definition index_file_name (segment_id : list N) : list N := b64_encode segment_id ++ [46] ++ index_file_ext.

(** std [Path::join] with a name that does not start with a slash.
    Called at src/store/segment_writer.rs:151-152. *)
Definition path_join (base name : path) : path :=
  match base with
  | [] => name
  | _ => if last base 0 =? 47 then base ++ name else base ++ [47] ++ name
  end.

(** segment_writer.rs:151-152 *)
Definition data_path (base : path) (segment_id : list N) : path := path_join base (data_file_name segment_id).
Definition index_path (base : path) (segment_id : list N) : path := path_join base (index_file_name segment_id).
