(** Facts about reading a range of a file. *)
From Verif Require Import Base Io.
Open Scope nat_scope.

Lemma firstn_plus : forall A (n m : nat) (l : list A),
  firstn (n + m) l = firstn n l ++ firstn m (skipn n l).
Proof.
  induction n as [|n IH]; intros m l; [reflexivity|]. destruct l as [|x l]; cbn.
  - rewrite firstn_nil. reflexivity.
  - f_equal. apply IH.
Qed.

Lemma skipn_plus : forall A (n m : nat) (l : list A), skipn (n + m) l = skipn m (skipn n l).
Proof.
  induction n as [|n IH]; intros m l; [reflexivity|]. destruct l as [|x l]; cbn.
  - rewrite skipn_nil. reflexivity.
  - apply IH.
Qed.

Lemma read_exact_at_spec : forall fuel file plan want off acc,
  length plan + (length file - N.to_nat off) < fuel ->
  (N.of_nat (length file) < 9223372036854775808)%N ->
  exists r, read_exact_at fuel file plan want off acc = Ret r
    /\ (forall bs, r = Ok bs ->
          bs = acc ++ firstn (N.to_nat want) (skipn (N.to_nat off) file)
          /\ (want = 0 \/ off + want <= N.of_nat (length file))%N)
    /\ (r = Err -> want <> 0%N /\ ((N.of_nat (length file) < off + want)%N \/ In PFail plan)).
Proof.
  induction fuel as [|fuel IH]; intros file plan want off acc F Sz; [lia|].
  cbn [read_exact_at]. destruct (N.eqb_spec want 0) as [->|NZ].
  { exists (Ok acc). split; [reflexivity|]. split; [|discriminate].
    intros bs E. inversion E; subst. rewrite app_nil_r. auto. }
  destruct (N.leb_spec 9223372036854775808%N off) as [Big|Small].
  { exists Err. split; [reflexivity|]. split; [discriminate|].
    intros _. split; [assumption|]. left. lia. }
  set (avail := if (N.of_nat (length file) <=? off)%N then [] else skipn (N.to_nat off) file).
  assert (EA : avail = skipn (N.to_nat off) file).
  { unfold avail. destruct (N.leb_spec (N.of_nat (length file)) off); [|reflexivity].
    rewrite skipn_all2 by lia. reflexivity. }
  assert (LA : length avail = length file - N.to_nat off) by (rewrite EA; apply skipn_length).
  set (most := N.to_nat (N.min want (N.of_nat (length avail)))).
  assert (LM : most <= length avail /\ (N.of_nat most <= want)%N
               /\ (most = 0 -> length avail = 0)
               /\ (most <> N.to_nat want -> most = length avail)) by (unfold most; lia).
  clearbody most. clearbody avail.
  assert (GOT : forall n rest,
    n <= most -> (most <> 0 -> n <> 0) -> length rest + (length avail - n) < fuel \/ n = 0 ->
    incl rest plan ->
    exists r,
      (if n =? 0 then Ret Err
       else read_exact_at fuel file rest (want - N.of_nat n)%N (off + N.of_nat n)%N
              (acc ++ firstn n avail)) = Ret r
      /\ (forall bs, r = Ok bs ->
            bs = acc ++ firstn (N.to_nat want) (skipn (N.to_nat off) file)
            /\ (want = 0 \/ off + want <= N.of_nat (length file))%N)
      /\ (r = Err -> want <> 0%N
            /\ ((N.of_nat (length file) < off + want)%N \/ In PFail plan))).
  { intros n rest Hn Hz Hf Hi. destruct (Nat.eqb_spec n 0) as [->|NZn].
    - exists Err. split; [reflexivity|]. split; [discriminate|]. intros _.
      split; [assumption|]. left. lia.
    - destruct (IH file rest (want - N.of_nat n)%N (off + N.of_nat n)%N (acc ++ firstn n avail))
        as (r & Er & HO & HE).
      { lia. }
      { assumption. }
      exists r. split; [exact Er|]. split.
      + intros bs Eb. destruct (HO bs Eb) as (Hb & Hr). split.
        * rewrite Hb, EA, <- app_assoc. f_equal.
          replace (N.to_nat (off + N.of_nat n)) with (N.to_nat off + n) by lia.
          rewrite skipn_plus, <- firstn_plus. f_equal. lia.
        * right. lia.
      + intros Ee. destruct (HE Ee) as (Hw & [Hl|Hp]); split; auto.
        left. lia. }
  destruct plan as [|[| |k] rest].
  - apply GOT; [lia|auto| |intros x []]. cbn [length] in *. lia.
  - destruct (IH file rest want off acc) as (r & Er & HO & HE); [cbn [length] in F; lia|assumption|].
    exists r. split; [exact Er|]. split; [exact HO|]. intros Ee. destruct (HE Ee) as (Hw & [Hl|Hp]).
    + auto.
    + split; [assumption|]. right. right. assumption.
  - exists Err. split; [reflexivity|]. split; [discriminate|]. intros _. split; [assumption|].
    right. left. reflexivity.
  - apply GOT; [lia|lia| |intros x Hx; right; exact Hx]. cbn [length] in *. lia.
Qed.

(** Reading a range, in one equation: the bytes, or an error exactly when the
    range is reversed, or not empty and past the end, or a [pread] failed. *)
Lemma read_block_spec : forall p file plan s e,
  (N.of_nat (length file) < 9223372036854775808)%N -> (s < u64_lim)%N -> (e < u64_lim)%N ->
  exists r, read_block p file plan s e = Ret r
    /\ (forall bs, r = Ok bs ->
          bs = firstn (N.to_nat (e - s)) (skipn (N.to_nat s) file)
          /\ (s = e \/ (s <= e /\ e <= N.of_nat (length file)))%N)
    /\ (r = Err -> (e < s \/ (s < e /\ N.of_nat (length file) < e))%N \/ In PFail plan).
Proof.
  intros p file plan s e L Hs He. unfold read_block, sub64, usub.
  change u64_lim with 18446744073709551616%N in *.
  assert (FU : forall off, length plan + (length file - off) < length plan + length file + 1) by lia.
  destruct (N.leb_spec s e) as [Le|Gt].
  - cbn [bind]. destruct (N.leb_spec 9223372036854775808%N (e - s)) as [Big|Small].
    + exists Err. split; [reflexivity|]. split; [discriminate|]. intros _. left. right. lia.
    + destruct (read_exact_at_spec _ file plan (e - s)%N s [] (FU (N.to_nat s)) L)
        as (r & Er & HO & HE).
      rewrite Er. cbn [asyncify]. exists r. split; [reflexivity|]. split.
      * intros bs Eb. destruct (HO bs Eb) as (Hb & Hr). split; [exact Hb|]. lia.
      * intros Ee. destruct (HE Ee) as (Hw & [Hl|Hp]); [left; lia|right; assumption].
  - destruct p.
    + cbn. exists Err. split; [reflexivity|]. split; [discriminate|]. auto.
    + cbn [bind]. destruct (N.leb_spec 9223372036854775808%N (e + 18446744073709551616 - s)) as [Big|Small].
      * exists Err. split; [reflexivity|]. split; [discriminate|]. auto.
      * destruct (read_exact_at_spec _ file plan (e + 18446744073709551616 - s)%N s []
                    (FU (N.to_nat s)) L) as (r & Er & HO & HE).
        rewrite Er. cbn [asyncify]. exists r. split; [reflexivity|]. split.
        -- intros bs Eb. destruct (HO bs Eb) as (Hb & Hr). lia.
        -- auto.
Qed.
