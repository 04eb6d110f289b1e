(** C56, C57: the seed list. *)
From Verif Require Import Base Config.
Open Scope nat_scope.

(** ** Vocabulary *)

(** The pieces separated by commas. *)
Fixpoint with_commas (pieces : list (list N)) : list N :=
  match pieces with
  | [] => []
  | [p] => p
  | p :: rest => p ++ [44%N] ++ with_commas rest
  end.

Definition white (c : N) : Prop :=
  (In c [9; 10; 11; 12; 13; 32; 133; 160; 5760; 8192; 8193; 8194; 8195; 8196; 8197; 8198; 8199; 8200; 8201; 8202;
         8232; 8233; 8239; 8287; 12288])%N.

(** [t] is [p] without the white space around it. *)
Definition stripped (p t : list N) : Prop :=
  exists before after, p = before ++ t ++ after /\ Forall white before /\ Forall white after
    /\ (forall c rest, t = c :: rest -> ~ white c) /\ (forall c rest, t = rest ++ [c] -> ~ white c).

(** ** Splitting *)

Lemma split_nonempty sep s : split_on sep s <> [].
Proof. destruct s as [|c s]; cbn; [discriminate|]. destruct (c =? sep)%N; [discriminate|]. destruct (split_on sep s); discriminate. Qed.

Lemma split_pieces s : with_commas (split_on 44 s) = s /\ Forall (fun p => ~ In 44%N p) (split_on 44 s).
Proof.
  induction s as [|c s [IH1 IH2]]; [split; [reflexivity|repeat constructor; auto]|].
  cbn [split_on]. destruct (N.eqb_spec c 44) as [->|NE].
  - pose proof (split_nonempty 44 s) as NN. destruct (split_on 44 s) as [|p ps]; [congruence|].
    split; [cbn [with_commas app] in *; rewrite IH1; reflexivity|]. constructor; [auto|assumption].
  - pose proof (split_nonempty 44 s) as NN. destruct (split_on 44 s) as [|p ps]; [congruence|].
    apply Forall_cons_iff in IH2. destruct IH2 as [Hp Hps]. split.
    + rewrite <- IH1. destruct ps; reflexivity.
    + constructor; [|assumption]. intros [X|X]; [congruence|contradiction].
Qed.

Lemma with_commas_inj : forall a b, a <> [] -> b <> [] ->
  Forall (fun p => ~ In 44%N p) a -> Forall (fun p => ~ In 44%N p) b -> with_commas a = with_commas b -> a = b.
Proof.
  assert (AUX : forall p q x y : list N, ~ In 44%N p -> ~ In 44%N q -> p ++ 44%N :: x = q ++ 44%N :: y -> p = q /\ x = y).
  { induction p as [|c p IH]; intros [|c' q] x y Hp Hq E; cbn in *.
    - inversion E. auto.
    - inversion E; subst. exfalso. auto.
    - inversion E; subst. exfalso. auto.
    - inversion E; subst. destruct (IH q x y) as [-> ->]; auto. }
  assert (NO : forall p q x : list N, ~ In 44%N p -> p = q ++ 44%N :: x -> False).
  { intros p q x Hp ->. apply Hp. apply in_or_app. right. left. reflexivity. }
  induction a as [|p a IH]; intros [|q b] NA NB FA FB E; try congruence.
  apply Forall_cons_iff in FA. apply Forall_cons_iff in FB. destruct FA as [Fp Fa], FB as [Fq Fb].
  destruct a as [|p2 a], b as [|q2 b].
  - cbn in E. congruence.
  - exfalso. cbn [with_commas app] in E. eapply (NO p q); [exact Fp|exact E].
  - exfalso. cbn [with_commas app] in E. eapply (NO q p); [exact Fq|]. symmetry. exact E.
  - change (with_commas (p :: p2 :: a)) with (p ++ 44%N :: with_commas (p2 :: a)) in E.
    change (with_commas (q :: q2 :: b)) with (q ++ 44%N :: with_commas (q2 :: b)) in E.
    apply AUX in E; [|assumption|assumption]. destruct E as [-> E]. f_equal. apply IH; auto; discriminate.
Qed.

(** ** Trimming *)

Lemma is_white_iff c : is_white c = true <-> white c.
Proof.
  unfold is_white, white. rewrite !orb_true_iff, !andb_true_iff, !N.leb_le, !N.eqb_eq. cbn [In].
  split; intros H; lia.
Qed.

Lemma trim_start_split s : exists before, s = before ++ trim_start s /\ Forall white before
  /\ (forall c rest, trim_start s = c :: rest -> ~ white c).
Proof.
  induction s as [|c s (b & E & F & NW)]; [exists []; repeat split; [constructor|discriminate]|].
  cbn [trim_start]. destruct (is_white c) eqn:W.
  - exists (c :: b). cbn. rewrite <- E. split; [reflexivity|]. split; [|assumption].
    constructor; [apply is_white_iff; exact W|assumption].
  - exists []. split; [reflexivity|]. split; [constructor|]. intros c' rest X. inversion X; subst.
    rewrite <- is_white_iff, W. discriminate.
Qed.

Lemma trim_stripped s : stripped s (str_trim s).
Proof.
  destruct (trim_start_split s) as (b & E & F & NW). unfold str_trim. set (t := trim_start s) in *.
  destruct (trim_start_split (rev t)) as (a & Ea & Fa & NWa). set (u := trim_start (rev t)) in *.
  assert (Et : t = rev u ++ rev a) by (apply (f_equal (@rev N)) in Ea; rewrite rev_involutive, rev_app_distr in Ea; exact Ea).
  exists b, (rev a). split; [rewrite <- Et; exact E|]. split; [exact F|]. split.
  { apply Forall_forall. intros x Hx. rewrite <- in_rev in Hx. rewrite Forall_forall in Fa. auto. }
  split.
  - intros c rest X. eapply (NW c (rest ++ rev a)). rewrite Et, X. reflexivity.
  - intros c rest X. eapply NWa. apply (f_equal (@rev N)) in X. rewrite rev_involutive, rev_app_distr in X. exact X.
Qed.

Lemma stripped_unique p t u : stripped p t -> stripped p u -> t = u.
Proof.
  assert (START : forall b1 b2 x y, Forall white b1 -> Forall white b2 ->
            (forall c r, x = c :: r -> ~ white c) -> (forall c r, y = c :: r -> ~ white c) -> b1 ++ x = b2 ++ y -> b1 = b2 \/ x = [] \/ y = []).
  { induction b1 as [|c b1 IH]; intros [|c' b2] x y F1 F2 X Y E; cbn in E.
    - auto.
    - right. left. destruct x; [reflexivity|]. inversion E; subst. apply Forall_cons_iff in F2. exfalso. eapply X; [reflexivity|tauto].
    - right. right. destruct y; [reflexivity|]. inversion E; subst. apply Forall_cons_iff in F1. exfalso. eapply Y; [reflexivity|tauto].
    - inversion E; subst. apply Forall_cons_iff in F1. apply Forall_cons_iff in F2. destruct (IH b2 x y) as [->|]; tauto. }
  intros (b1 & a1 & E1 & FB1 & FA1 & S1 & L1) (b2 & a2 & E2 & FB2 & FA2 & S2 & L2).
  assert (ALL : forall b a v, p = b ++ v ++ a -> v = [] -> Forall white b -> Forall white a -> Forall white p).
  { intros b a v -> -> Fb Fa. apply Forall_app. split; assumption. }
  assert (EMP : Forall white p -> forall b a v, p = b ++ v ++ a -> (forall c r, v = c :: r -> ~ white c) -> v = []).
  { intros FP b a [|c v] E S; [reflexivity|]. exfalso. rewrite E, Forall_app in FP. destruct FP as [_ FP].
    cbn in FP. apply Forall_cons_iff in FP. eapply S; [reflexivity|tauto]. }
  destruct t as [|c1 t].
  { symmetry. eapply EMP; [eapply (ALL b1 a1 []); eauto|exact E2|exact S2]. }
  destruct u as [|c2 u].
  { eapply EMP; [eapply (ALL b2 a2 []); eauto|exact E1|exact S1]. }
  assert (b1 = b2).
  { destruct (START b1 b2 ((c1 :: t) ++ a1) ((c2 :: u) ++ a2)) as [|[|]]; auto; try discriminate.
    - intros c r X. inversion X; subst. eapply S1. reflexivity.
    - intros c r X. inversion X; subst. eapply S2. reflexivity.
    - rewrite <- E1. exact E2. }
  subst b2. rewrite E1 in E2. apply app_inv_head in E2.
  assert (rev a1 = rev a2).
  { apply (f_equal (@rev N)) in E2. rewrite !rev_app_distr in E2.
    destruct (START (rev a1) (rev a2) (rev (c1 :: t)) (rev (c2 :: u))) as [|[X|X]]; auto.
    - apply Forall_rev. assumption.
    - apply Forall_rev. assumption.
    - intros c r X. eapply (L1 c (rev r)). apply (f_equal (@rev N)) in X. rewrite rev_involutive in X. exact X.
    - intros c r X. eapply (L2 c (rev r)). apply (f_equal (@rev N)) in X. rewrite rev_involutive in X. exact X.
    - apply (f_equal (@length N)) in X. rewrite rev_length in X. discriminate.
    - apply (f_equal (@length N)) in X. rewrite rev_length in X. discriminate. }
  apply (f_equal (@rev N)) in H. rewrite !rev_involutive in H. subst a2. apply app_inv_tail in E2. exact E2.
Qed.

(** ** C56 *)

(** The seeds are exactly the pieces between the commas, in order, each without
    the white space around it; this determines them. *)
Theorem C56_seeds : forall s seeds,
  parse_seeds (Some s) = seeds
  <-> exists pieces, pieces <> [] /\ with_commas pieces = s /\ Forall (fun p => ~ In 44%N p) pieces
                     /\ Forall2 stripped pieces seeds.
Proof.
  intros s seeds. unfold parse_seeds. destruct (split_pieces s) as [E F]. split.
  - intros <-. exists (split_on 44 s). split; [apply split_nonempty|]. split; [exact E|]. split; [exact F|].
    clear. induction (split_on 44 s) as [|p ps IH]; cbn; constructor; [apply trim_stripped|exact IH].
  - intros (pieces & NE & E2 & F2 & ST).
    assert (pieces = split_on 44 s) as <- by (apply with_commas_inj; auto; [apply split_nonempty|congruence]).
    clear -ST. induction ST as [|p t ps ts H ST IH]; [reflexivity|]. cbn. rewrite IH. f_equal.
    eapply stripped_unique; [apply trim_stripped|exact H].
Qed.
Print Assumptions C56_seeds.

(** In particular no seed has a comma in it or white space at its ends. *)
Theorem C56_clean : forall seeds t,
  In t (parse_seeds seeds) ->
  ~ In 44%N t /\ (forall c rest, t = c :: rest -> ~ white c) /\ (forall c rest, t = rest ++ [c] -> ~ white c).
Proof.
  intros seeds t H. unfold parse_seeds in H. apply in_map_iff in H. destruct H as (p & <- & Hp).
  destruct (split_pieces (match seeds with Some s => s | None => [] end)) as [_ F]. rewrite Forall_forall in F.
  specialize (F p Hp). destruct (trim_stripped p) as (b & a & E & _ & _ & S1 & S2).
  split; [|split; assumption]. intros X. apply F. rewrite E. apply in_or_app. right. apply in_or_app. left. exact X.
Qed.
Print Assumptions C56_clean.

(** " a1 ,b" *)
Example C56_witness : parse_seeds (Some [32; 97; 49; 32; 44; 98]%N) = [[97; 49]; [98]]%N.
Proof. reflexivity. Qed.

(** ** C57 *)

(** The statement: no seeds for an absent or blank option. *)
Definition C57_statement : Prop :=
  parse_seeds None = [] /\ forall s, Forall white s -> parse_seeds (Some s) = [].

Theorem C57_no_seeds_refuted : ~ C57_statement.
Proof. intros [H _]. vm_compute in H. discriminate. Qed.
Print Assumptions C57_no_seeds_refuted.

(** It fails in every case: there is then one seed, the empty name... *)
Theorem C57_blank_gives_one_empty_seed_partial :
  parse_seeds None = [[]] /\ (forall s, Forall white s -> parse_seeds (Some s) = [[]]).
Proof.
  split; [reflexivity|]. intros s F. apply C56_seeds. exists [s]. split; [discriminate|]. split; [reflexivity|]. split.
  - constructor; [|constructor]. intros X. rewrite Forall_forall in F. specialize (F _ X). cbv [white In] in F. lia.
  - constructor; [|constructor]. exists s, []. split; [cbn; rewrite app_nil_r; reflexivity|]. split; [exact F|].
    split; [constructor|]. split; [discriminate|]. intros c rest X. destruct rest; discriminate.
Qed.
Print Assumptions C57_blank_gives_one_empty_seed_partial.

(** ... and the list is never empty: an empty name is a seed exactly when some
    piece between commas is blank. *)
Theorem C57_exact_partial : forall s,
  (forall seeds, parse_seeds seeds <> [])
  /\ (In [] (parse_seeds (Some s))
      <-> exists before p after, with_commas (before ++ [p] ++ after) = s
            /\ Forall (fun p => ~ In 44%N p) (before ++ [p] ++ after) /\ Forall white p).
Proof.
  intros s. split.
  { intros seeds X. unfold parse_seeds in X. apply map_eq_nil in X. revert X. apply split_nonempty. }
  destruct (split_pieces s) as [E F]. unfold parse_seeds. split.
  - intros H. apply in_map_iff in H. destruct H as (p & T & Hp). apply in_split in Hp. destruct Hp as (b & a & EP).
    exists b, p, a. cbn [app]. rewrite <- EP. split; [exact E|]. split; [exact F|].
    destruct (trim_stripped p) as (b' & a' & E' & Fb & Fa & _). rewrite T in E'. rewrite E'. apply Forall_app. split; assumption.
  - intros (b & p & a & EP & FP & W). apply in_map_iff. exists p.
    assert (b ++ [p] ++ a = split_on 44 s) as <-.
    { apply with_commas_inj; auto; [destruct b; discriminate|apply split_nonempty|congruence]. }
    split; [|apply in_or_app; right; left; reflexivity].
    eapply stripped_unique; [apply trim_stripped|]. exists p, []. split; [cbn; rewrite app_nil_r; reflexivity|].
    split; [exact W|]. split; [constructor|]. split; [discriminate|]. intros c rest X. destruct rest; discriminate.
Qed.
Print Assumptions C57_exact_partial.

Example C57_witness : Forall white [32; 9]%N /\ parse_seeds (Some [32; 9]%N) = [[]].
Proof. split; [|reflexivity]. repeat constructor; cbv [white In]; lia. Qed.
