(** Reading back what the model of prost writes. *)
From Verif Require Import Base Metadata Proto SpecProto.
From Coq Require Import ZifyN.
Open Scope N_scope.
Ltac Zify.zify_post_hook ::= Z.to_euclidean_division_equations.

(** ** Numbers *)

Lemma size_bound v : v < 2 ^ N.of_nat (N.size_nat v).
Proof.
  destruct v as [|p]; [reflexivity|]. cbn [N.size_nat].
  induction p as [p IH|p IH|]; cbn [Pos.size_nat]; [| |reflexivity]; rewrite Nat2N.inj_succ, N.pow_succ_r'; lia.
Qed.

Lemma read_varint_loop fuel : forall v rest, v < 2 ^ N.of_nat fuel -> read_varint (encode_varint_loop (S fuel) v ++ rest) = Some (v, rest).
Proof.
  induction fuel as [|fuel IH]; intros v rest H; remember (encode_varint_loop) as L.
  - change (2 ^ N.of_nat 0) with 1 in H. assert (v = 0) by lia. subst. reflexivity.
  - subst L. cbn [encode_varint_loop]. destruct (N.ltb_spec v 128) as [L|L].
    + cbn. destruct (N.ltb_spec v 128); [reflexivity|lia].
    + fold (encode_varint_loop (S fuel) (v / 128)). cbn [app read_varint].
      destruct (N.ltb_spec (v mod 128 + 128) 128); [lia|].
      change ((if v / 128 <? 128 then [v / 128] else ((v / 128) mod 128 + 128) :: encode_varint_loop fuel (v / 128 / 128)) ++ rest)
        with (encode_varint_loop (S fuel) (v / 128) ++ rest).
      rewrite IH.
      * f_equal. f_equal. lia.
      * rewrite Nat2N.inj_succ, N.pow_succ_r' in H. clear IH. set (q := 2 ^ N.of_nat fuel) in *. clearbody q. lia.
Qed.

Lemma read_encode_varint v rest : read_varint (encode_varint v ++ rest) = Some (v, rest).
Proof. apply read_varint_loop, size_bound. Qed.

Lemma encode_varint_cons v : exists b bs, encode_varint v = b :: bs.
Proof. unfold encode_varint. cbn [encode_varint_loop]. destruct (v <? 128); eauto. Qed.

Lemma take_all (b rest : list N) : take_bytes (N.of_nat (length b)) (b ++ rest) = Some (b, rest).
Proof.
  unfold take_bytes. rewrite app_length. destruct (N.leb_spec (N.of_nat (length b)) (N.of_nat (length b + length rest))); [|lia].
  rewrite Nat2N.id, firstn_app, firstn_all, Nat.sub_diag, firstn_O, app_nil_r, skipn_app, skipn_all, Nat.sub_diag.
  reflexivity.
Qed.

(** ** Records *)

Definition put_record (r : N * wire) : list N :=
  match snd r with
  | WInt v => encode_key (fst r) 0 ++ encode_varint v
  | WBytes b => put_delimited (fst r) b
  end.

Definition flat (records : list (N * wire)) : list N := concat (map put_record records).

Lemma flat_app a b : flat (a ++ b) = flat a ++ flat b.
Proof. unfold flat. rewrite map_app, concat_app. reflexivity. Qed.

Lemma read_put_record k w rest : 0 < k -> read_record (put_record (k, w) ++ rest) = Some (k, w, rest).
Proof.
  intros K. unfold read_record, put_record. cbn [fst snd]. destruct w as [v|b]; unfold put_delimited, encode_key; rewrite <- !app_assoc, read_encode_varint.
  - replace ((k * 8 + 0) / 8) with k by lia. replace ((k * 8 + 0) mod 8) with 0 by lia.
    destruct (N.eqb_spec k 0); [lia|]. rewrite read_encode_varint. reflexivity.
  - replace ((k * 8 + 2) / 8) with k by lia. replace ((k * 8 + 2) mod 8) with 2 by lia.
    destruct (N.eqb_spec k 0); [lia|]. rewrite read_encode_varint, take_all. reflexivity.
Qed.

Lemma put_record_cons r : exists b bs, put_record r = b :: bs.
Proof.
  unfold put_record, put_delimited, encode_key. destruct (snd r).
  - destruct (encode_varint_cons (fst r * 8 + 0)) as (b0 & bs0 & ->). cbn. eauto.
  - destruct (encode_varint_cons (fst r * 8 + 2)) as (b0 & bs0 & ->). cbn. eauto.
Qed.

Lemma read_flat_fuel records : forall fuel, Forall (fun r => 0 < fst r) records -> (length (flat records) <= fuel)%nat ->
  read_records fuel (flat records) = Some records.
Proof.
  induction records as [|r records IH]; intros fuel F L; [destruct fuel; reflexivity|].
  apply Forall_cons_iff in F. destruct F as [K F]. destruct r as [k w].
  change (flat ((k, w) :: records)) with (put_record (k, w) ++ flat records) in *.
  pose proof (read_put_record k w (flat records) K) as R. rewrite app_length in L.
  destruct (put_record_cons (k, w)) as (b & bs & E). rewrite E in *. cbn [length] in L.
  destruct fuel as [|fuel]; [lia|]. cbn [app read_records] in *. rewrite R, IH; [reflexivity|exact F|lia].
Qed.

Lemma read_flat records : Forall (fun r => 0 < fst r) records -> read_message (flat records) = Some records.
Proof. intros F. apply read_flat_fuel; [exact F|lia]. Qed.

(** ** Fields as records *)

Definition f_uint (k v : N) : list (N * wire) := if v =? 0 then [] else [(k, WInt v)].
Definition f_bytes (k : N) (b : list N) : list (N * wire) := match b with [] => [] | _ => [(k, WBytes b)] end.
Definition f_message {A} (enc : A -> list N) (k : N) (m : option A) : list (N * wire) :=
  match m with Some a => [(k, WBytes (enc a))] | None => [] end.
Definition f_entry {A} (enc : A -> list N) (is_default : A -> bool) (e : list N * A) : list (N * wire) :=
  f_bytes 1 (fst e) ++ (if is_default (snd e) then [] else [(2, WBytes (enc (snd e)))]).
Definition f_map {A} (enc : A -> list N) (is_default : A -> bool) (k : N) (entries : list (list N * A)) : list (N * wire) :=
  map (fun e => (k, WBytes (flat (f_entry enc is_default e)))) entries.

Lemma flat_one k w : flat [(k, w)] = put_record (k, w).
Proof. unfold flat. cbn. apply app_nil_r. Qed.

Lemma flat_uint k v : put_uint k v = flat (f_uint k v).
Proof. unfold put_uint, f_uint. destruct (v =? 0); [reflexivity|]. rewrite flat_one. reflexivity. Qed.

Lemma flat_bytes k b : put_bytes k b = flat (f_bytes k b).
Proof. destruct b; [reflexivity|]. cbn [f_bytes put_bytes]. rewrite flat_one. reflexivity. Qed.

Lemma flat_delimited k b : put_delimited k b = flat [(k, WBytes b)].
Proof. rewrite flat_one. reflexivity. Qed.

Lemma flat_message {A} (enc : A -> list N) k m : put_message enc k m = flat (f_message enc k m).
Proof. destruct m; [|reflexivity]. cbn [f_message put_message]. rewrite flat_one. reflexivity. Qed.

Lemma flat_map_field {A} (enc : A -> list N) is_default k entries : put_map enc is_default k entries = flat (f_map enc is_default k entries).
Proof.
  unfold put_map, f_map. induction entries as [|[key v] entries IH]; [reflexivity|]. cbn [map concat]. rewrite IH.
  change (flat ((k, WBytes (flat (f_entry enc is_default (key, v)))) :: ?l)) with (put_record (k, WBytes (flat (f_entry enc is_default (key, v)))) ++ flat l).
  unfold flat at 2. cbn [map concat]. f_equal. unfold put_record. cbn [fst snd]. f_equal. unfold f_entry. rewrite flat_app, flat_bytes. cbn [fst snd].
  f_equal. destruct (is_default v); [reflexivity|]. rewrite flat_one. reflexivity.
Qed.

(** ** Looking fields up *)

Lemma ints_app k a b : ints_of k (a ++ b) = ints_of k a ++ ints_of k b.
Proof. induction a as [|[k' [v|v]] a IH]; cbn; rewrite ?IH; try reflexivity; destruct (k' =? k); reflexivity. Qed.
Lemma bytesf_app k a b : bytes_of_field k (a ++ b) = bytes_of_field k a ++ bytes_of_field k b.
Proof. induction a as [|[k' [v|v]] a IH]; cbn; rewrite ?IH; try reflexivity; destruct (k' =? k); reflexivity. Qed.
Lemma oneof_app ks a b : oneof_field ks (a ++ b) = match oneof_field ks b with Some r => Some r | None => oneof_field ks a end.
Proof.
  induction a as [|[k' w] a IH]; cbn; [destruct (oneof_field ks b); reflexivity|].
  rewrite IH. destruct (oneof_field ks b); [reflexivity|]. reflexivity.
Qed.

Lemma ints_uint k k' v : ints_of k (f_uint k' v) = if k' =? k then (if v =? 0 then [] else [v]) else [].
Proof. unfold f_uint. destruct (v =? 0); cbn; destruct (k' =? k); reflexivity. Qed.
Lemma ints_bytes k k' b : ints_of k (f_bytes k' b) = [].
Proof. destruct b; reflexivity. Qed.
Lemma ints_map {A} (enc : A -> list N) df k k' es : ints_of k (f_map enc df k' es) = [].
Proof. unfold f_map. induction es as [|e es IH]; [reflexivity|exact IH]. Qed.
Lemma bytesf_uint k k' v : bytes_of_field k (f_uint k' v) = [].
Proof. unfold f_uint. destruct (v =? 0); reflexivity. Qed.
Lemma bytesf_bytes k k' b : bytes_of_field k (f_bytes k' b) = if k' =? k then (match b with [] => [] | _ => [b] end) else [].
Proof. destruct b; cbn; destruct (k' =? k); reflexivity. Qed.
Lemma bytesf_message {A} (enc : A -> list N) k k' m :
  bytes_of_field k (f_message enc k' m) = if k' =? k then match m with Some a => [enc a] | None => [] end else [].
Proof. destruct m; cbn; destruct (k' =? k); reflexivity. Qed.
Lemma bytesf_map {A} (enc : A -> list N) df k k' es :
  bytes_of_field k (f_map enc df k' es) = if k' =? k then map (fun e => flat (f_entry enc df e)) es else [].
Proof. unfold f_map. destruct (k' =? k) eqn:E; induction es as [|e es IH]; cbn; rewrite ?E, ?IH; reflexivity. Qed.
Lemma oneof_uint ks k v : oneof_field ks (f_uint k v) = None.
Proof. unfold f_uint. destruct (v =? 0); reflexivity. Qed.
Lemma oneof_bytes ks k b : existsb (N.eqb k) ks = false -> oneof_field ks (f_bytes k b) = None.
Proof. intros H. destruct b; cbn; [reflexivity|]. rewrite H. reflexivity. Qed.
Lemma oneof_message {A} (enc : A -> list N) ks k m : existsb (N.eqb k) ks = false -> oneof_field ks (f_message enc k m) = None.
Proof. intros H. destruct m; cbn; [|reflexivity]. rewrite H. reflexivity. Qed.

Lemma last_uint v : last (if v =? 0 then [] else [v]) 0 = v.
Proof. destruct (N.eqb_spec v 0); [subst; reflexivity|reflexivity]. Qed.
Lemma last_bytes (b : list N) : last (match b with [] => [] | _ => [b] end) [] = b.
Proof. destruct b; reflexivity. Qed.

Lemma numbers_uint k v : 0 < k -> Forall (fun r : N * wire => 0 < fst r) (f_uint k v).
Proof. intros K. unfold f_uint. destruct (v =? 0); repeat constructor. exact K. Qed.
Lemma numbers_bytes k b : 0 < k -> Forall (fun r : N * wire => 0 < fst r) (f_bytes k b).
Proof. intros K. destruct b; repeat constructor. exact K. Qed.
Lemma numbers_message {A} (enc : A -> list N) k m : 0 < k -> Forall (fun r : N * wire => 0 < fst r) (f_message enc k m).
Proof. intros K. destruct m; repeat constructor. exact K. Qed.
Lemma numbers_map {A} (enc : A -> list N) df k es : 0 < k -> Forall (fun r : N * wire => 0 < fst r) (f_map enc df k es).
Proof. intros K. unfold f_map. induction es; constructor; auto. Qed.

Ltac numbers :=
  repeat (apply Forall_app; split);
  auto using numbers_uint, numbers_bytes, numbers_message, numbers_map with arith;
  try (apply numbers_uint; reflexivity); try (apply numbers_bytes; reflexivity);
  try (apply numbers_message; reflexivity); try (apply numbers_map; reflexivity).

(** ** The messages *)

Lemma read_encode_range r : read_range (encode_range r) = Some r.
Proof.
  unfold encode_range. rewrite !flat_uint, <- flat_app. unfold read_range. rewrite read_flat by numbers.
  unfold int_field. rewrite !ints_app, !ints_uint. cbn [N.eqb Pos.eqb]. rewrite app_nil_r. cbn [app]. rewrite !last_uint.
  destruct r; reflexivity.
Qed.

Lemma read_encode_ranged r : read_ranged (encode_ranged r) = Some r.
Proof.
  unfold encode_ranged. rewrite flat_message. unfold read_ranged. rewrite read_flat by numbers. unfold message_field.
  rewrite bytesf_message. cbn [N.eqb Pos.eqb]. destruct r as [r|]; [|reflexivity]. cbn [concat]. rewrite app_nil_r, read_encode_range. reflexivity.
Qed.

Lemma read_encode_column_meta c : read_column_meta (encode_column_meta c) = Some c.
Proof.
  unfold encode_column_meta. set (st := match cm_stats c with Some s => put_delimited (stats_tag s) [] | None => [] end).
  assert (ES : st = flat (match cm_stats c with Some s => [(stats_tag s, WBytes [])] | None => [] end)).
  { unfold st. destruct (cm_stats c); [apply flat_delimited|reflexivity]. }
  rewrite ES. unfold put_bool. rewrite flat_bytes, !flat_uint, <- !flat_app. unfold read_column_meta. rewrite read_flat.
  2:{ numbers. destruct (cm_stats c) as [[]|]; repeat constructor. }
  unfold int_field, bytes_field.
  rewrite !ints_app, !ints_uint, !ints_bytes, !bytesf_app, !bytesf_uint, !bytesf_bytes, !oneof_app, !oneof_uint, oneof_bytes by reflexivity.
  cbn [N.eqb Pos.eqb app]. rewrite ?app_nil_r.
  assert (NI : forall k, ints_of k match cm_stats c with Some s => [(stats_tag s, WBytes [])] | None => [] end = []) by (destruct (cm_stats c) as [[]|]; reflexivity).
  assert (NB : bytes_of_field 1 match cm_stats c with Some s => [(stats_tag s, WBytes [])] | None => [] end = []) by (destruct (cm_stats c) as [[]|]; reflexivity).
  rewrite !NI, NB, !app_nil_r, !last_uint, last_bytes.
  destruct c as [nm ty nl en ca ix nv nn cs us st']. cbn [cm_name cm_type cm_nullable cm_encoding cm_cardinality cm_index_type cm_num_values cm_num_nulls cm_compressed_size cm_uncompressed_size cm_stats] in *.
  f_equal. f_equal; [destruct nl; reflexivity|destruct st' as [[]|]; reflexivity].
Qed.

Lemma column_meta_default c : column_meta_is_default c = true -> read_column_meta [] = Some c.
Proof.
  destruct c as [nm ty nl en ca ix nv nn cs us st']. unfold column_meta_is_default.
  cbn [cm_name cm_type cm_nullable cm_encoding cm_cardinality cm_index_type cm_num_values cm_num_nulls cm_compressed_size cm_uncompressed_size cm_stats].
  rewrite !andb_true_iff, !N.eqb_eq, negb_true_iff. intros H. destruct H as [[[[[[[[[[H1 ->] ->] ->] ->] ->] ->] ->] ->] ->] H2].
  destruct nm; [|discriminate]. destruct st'; [discriminate|]. reflexivity.
Qed.

Lemma read_encode_column_layout c : read_column_layout (encode_column_layout c) = Some c.
Proof.
  destruct c as [[[bi]|] [[|ri]|] [[|re|]|]]; unfold encode_column_layout, encode_block_index_layout; cbn [cl_block_index cl_column_index cl_encoder put_message bil_range app];
    rewrite ?flat_delimited, ?app_nil_r, <- ?flat_app; unfold read_column_layout;
    try (rewrite read_flat by (repeat constructor); cbn [app oneof_field existsb N.eqb Pos.eqb orb message_field bytes_of_field concat option_map]; unfold message_field;
         cbn [app oneof_field existsb N.eqb Pos.eqb orb message_field bytes_of_field concat option_map];
         rewrite ?app_nil_r, ?read_encode_ranged; reflexivity).
  reflexivity.
Qed.

Lemma column_layout_default c : column_layout_is_default c = true -> read_column_layout [] = Some c.
Proof. destruct c as [[|] [|] [|]]; try discriminate. reflexivity. Qed.

(** ** Maps *)

Lemma without_fresh {A} k (es : list (list N * A)) : ~ In k (map fst es) -> without k es = es.
Proof.
  unfold without. induction es as [|[k' v] es IH]; intros H; [reflexivity|]. cbn [filter fst map In] in *.
  destruct (list_eq_dec N.eq_dec k k') as [->|]; [exfalso; auto|]. rewrite IH by auto. reflexivity.
Qed.

Lemma read_entries_ok {A} (read : list N -> option A) (enc : A -> list N) (df : A -> bool) :
  (forall v, read (enc v) = Some v) -> (forall v, df v = true -> read [] = Some v) ->
  forall es sofar, NoDup (map fst (sofar ++ es)) ->
  read_entries read (map (fun e => flat (f_entry enc df e)) es) sofar = Some (sofar ++ es).
Proof.
  intros RE RD. induction es as [|[k v] es IH]; intros sofar ND; [cbn; rewrite app_nil_r; reflexivity|].
  cbn [map read_entries]. rewrite read_flat.
  2:{ unfold f_entry. apply Forall_app. split; [apply numbers_bytes; reflexivity|]. destruct (df _); repeat constructor. }
  unfold f_entry, bytes_field. rewrite !bytesf_app, !bytesf_bytes. cbn [N.eqb Pos.eqb app fst snd].
  assert (E1 : last ((match k with [] => [] | _ :: _ => [k] end) ++ bytes_of_field 1 (if df v then [] else [(2, WBytes (enc v))])) [] = k).
  { destruct (df v); cbn; rewrite app_nil_r; apply last_bytes. }
  rewrite E1.
  assert (E2 : read (concat (bytes_of_field 2 (if df v then [] else [(2, WBytes (enc v))]))) = Some v).
  { destruct (df v) eqn:D; cbn; [auto|]. rewrite app_nil_r. auto. }
  rewrite E2. rewrite without_fresh.
  - rewrite IH; [rewrite <- app_assoc; reflexivity|]. rewrite <- app_assoc. exact ND.
  - rewrite map_app in ND. cbn [map fst] in ND. apply NoDup_remove_2 in ND. rewrite in_app_iff in ND. tauto.
Qed.

Lemma read_encode_segment_meta s : NoDup (map fst (sm_columns_meta s)) -> read_segment_meta (encode_segment_meta s) = Some s.
Proof.
  intros ND. unfold encode_segment_meta. rewrite !flat_bytes, !flat_uint, flat_map_field, <- !flat_app. unfold read_segment_meta.
  rewrite read_flat by numbers. unfold int_field, bytes_field, map_field.
  rewrite !ints_app, !ints_uint, !ints_bytes, !bytesf_app, !bytesf_uint, !bytesf_bytes, !ints_map, !bytesf_map.
  cbn [N.eqb Pos.eqb app]. rewrite ?app_nil_r, !last_uint, !last_bytes.
  rewrite (read_entries_ok read_column_meta encode_column_meta column_meta_is_default read_encode_column_meta column_meta_default _ []) by exact ND.
  destruct s; reflexivity.
Qed.

(** Every metadata value is read back. *)
Lemma read_encode_metadata m :
  (forall s, md_segment_meta m = Some s -> NoDup (map fst (sm_columns_meta s))) -> NoDup (map fst (md_columns_layout m)) ->
  read_metadata (encode_metadata m) = Some m.
Proof.
  intros NS NL. unfold encode_metadata. rewrite flat_message, flat_map_field, <- flat_app. unfold read_metadata.
  rewrite read_flat by numbers. unfold map_field, message_field.
  rewrite !bytesf_app, !bytesf_message, !bytesf_map. cbn [N.eqb Pos.eqb app]. rewrite app_nil_r.
  rewrite (read_entries_ok read_column_layout encode_column_layout column_layout_is_default read_encode_column_layout column_layout_default _ []) by exact NL.
  destruct m as [[s|] ls]; cbn [md_segment_meta md_columns_layout app] in *; [|reflexivity].
  cbn [concat]. rewrite app_nil_r, read_encode_segment_meta by (apply NS; reflexivity). reflexivity.
Qed.
