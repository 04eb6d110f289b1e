(** C71, C72: starting a server and its configuration. *)
From Verif Require Import Base Config PropsConfig Server.
Open Scope nat_scope.

(** * C71: a server can be started again *)

Definition starts (calls : list server_call) : nat := length (filter (fun c => match c with CallStart _ => true | CallStop _ => false end) calls).
Definition announced (c : server_call) : message := match c with CallStart _ => MStarting | CallStop _ => MStopping end.

(** A fresh process. *)
Definition fresh : process := mkprocess false false [].

Definition C71_statement : Prop := forall m, exists s, server_run fresh [CallStart m; CallStop m; CallStart m] = Ret s.

Theorem C71_start_again_refuted : ~ C71_statement.
Proof. intros H. destruct (H (mkmeerkat (mkconfig [] 0 []))) as [s E]. discriminate E. Qed.
Print Assumptions C71_start_again_refuted.

Lemma run_set s calls : pr_subscriber s = true ->
  server_run s calls = if starts calls =? 0 then Ret (mkprocess true (pr_tracer s) (pr_printed s ++ map announced calls)) else Panic PExpect.
Proof.
  revert s. induction calls as [|c calls IH]; intros s H.
  - destruct s as [b t l]. cbn in H. subst b. cbn. rewrite app_nil_r. reflexivity.
  - destruct c as [m|m]; cbn [server_run].
    + unfold server_start, init_logging. rewrite H. reflexivity.
    + unfold server_stop, say. rewrite H. rewrite IH by reflexivity. change (starts (CallStop m :: calls)) with (starts calls).
      cbn [pr_tracer pr_printed map announced]. rewrite <- app_assoc. reflexivity.
Qed.

(** Exactly the sequences with at most one start, of whichever server, return;
    calls before it are silent, all from it on are announced. *)
Theorem C71_exact_partial : forall before m after,
  starts before = 0 ->
  server_run fresh before = Ret fresh
  /\ server_run fresh (before ++ CallStart m :: after)
     = if starts after =? 0 then Ret (mkprocess true true (map announced (CallStart m :: after))) else Panic PExpect.
Proof.
  intros before m after. induction before as [|c before IH]; intros H.
  - split; [reflexivity|]. cbn [app server_run server_start init_logging fresh pr_subscriber bind say pr_printed pr_tracer]. rewrite run_set by reflexivity. reflexivity.
  - destruct c as [m'|m']; [discriminate H|]. exact (IH H).
Qed.
Print Assumptions C71_exact_partial.

Theorem C71_witness : forall m m',
  server_run fresh [CallStop m; CallStart m; CallStop m'] = Ret (mkprocess true true [MStarting; MStopping])
  /\ server_run fresh [CallStart m; CallStart m'] = Panic PExpect.
Proof. split; reflexivity. Qed.
Print Assumptions C71_witness.

(** * C72: the configuration *)

(** The number written by decimal digits, most significant first. *)
Definition is_digit (c : N) : Prop := (48 <= c <= 57)%N.
Fixpoint decimal (s : list N) : N :=
  match s with
  | [] => 0
  | c :: rest => (c - 48) * 10 ^ N.of_nat (length rest) + decimal rest
  end%N.

Lemma u16_digits_spec s : forall acc, (acc < 65536)%N -> forall n,
  u16_digits acc s = Some n <-> Forall is_digit s /\ n = (acc * 10 ^ N.of_nat (length s) + decimal s)%N /\ (n < 65536)%N.
Proof.
  induction s as [|c s IH]; intros acc L n.
  - cbn [u16_digits length decimal]. change (10 ^ N.of_nat 0)%N with 1%N. split.
    + intros E. injection E as <-. split; [constructor|]. lia.
    + intros (_ & -> & _). f_equal. lia.
  - cbn [u16_digits length decimal]. rewrite Nat2N.inj_succ, N.pow_succ_r'. set (P := (10 ^ N.of_nat (length s))%N).
    assert (PP : (1 <= P)%N) by (unfold P; pose proof (N.pow_nonzero 10 (N.of_nat (length s))); lia).
    destruct ((48 <=? c)%N && (c <=? 57)%N) eqn:C.
    + apply andb_prop in C. destruct C as [C1 C2]. apply N.leb_le in C1. apply N.leb_le in C2.
      destruct (N.leb_spec 65536 (acc * 10 + (c - 48))) as [B|B].
      * split; [discriminate|]. intros (_ & -> & X). exfalso. assert (65536 * P <= (acc * 10 + (c - 48)) * P)%N by (apply N.mul_le_mono_r; exact B). nia.
      * rewrite (IH _ B n). fold P. split; intros (F & E & X); (split; [|split; [rewrite E; ring|exact X]]).
        -- constructor; [split; assumption|exact F].
        -- apply Forall_cons_iff in F. apply F.
    + split; [discriminate|]. intros (F & _). apply Forall_cons_iff in F. destruct F as [[F1 F2] _]. apply N.leb_le in F1. apply N.leb_le in F2. rewrite F1, F2 in C. discriminate C.
Qed.

(** A port is accepted if and only if it is a number below 65536 in decimal
    digits, perhaps after a plus sign; and then it is this number. *)
Theorem C72_port : forall s n,
  u16_from_str s = Some n <->
  exists digits, (s = digits \/ s = 43%N :: digits) /\ digits <> [] /\ Forall is_digit digits /\ n = decimal digits /\ (n < 65536)%N.
Proof.
  intros s n. assert (DS : forall ds, u16_digits 0 ds = Some n <-> Forall is_digit ds /\ n = decimal ds /\ (n < 65536)%N).
  { intros ds. rewrite u16_digits_spec by lia. rewrite N.mul_0_l, N.add_0_l. reflexivity. }
  assert (ND : ~ is_digit 43) by (unfold is_digit; lia).
  destruct s as [|c [|c' rest]]; cbn [u16_from_str].
  - split; [discriminate|]. intros (ds & [<-|X] & NE & _); [congruence|discriminate X].
  - destruct ((c =? 43) || (c =? 45))%N eqn:S1.
    + split; [discriminate|]. apply Bool.orb_prop in S1. intros (ds & [<-|X] & NE & F & _).
      * apply Forall_cons_iff in F. destruct F as [[F1 F2] _]. destruct S1 as [S1|S1]; apply N.eqb_eq in S1; lia.
      * injection X as _ <-. congruence.
    + rewrite DS. apply Bool.orb_false_elim in S1. destruct S1 as [S1 _]. apply N.eqb_neq in S1. split.
      * intros H. exists [c]. split; [left; reflexivity|]. split; [discriminate|exact H].
      * intros (ds & [<-|X] & NE & H); [exact H|]. injection X as X _. congruence.
  - destruct (N.eqb_spec c 43) as [->|NP]; rewrite DS; split.
    + intros H. exists (c' :: rest). split; [right; reflexivity|]. split; [discriminate|exact H].
    + intros (ds & [<-|X] & NE & H); [destruct H as (F & _); apply Forall_cons_iff in F; destruct F; contradiction|]. injection X as <-. exact H.
    + intros H. exists (c :: c' :: rest). split; [left; reflexivity|]. split; [discriminate|exact H].
    + intros (ds & [<-|X] & NE & H); [exact H|]. injection X as X _. congruence.
Qed.
Print Assumptions C72_port.

(** The options: the command line wins over the environment, which wins over the
    default; the program ends if there is no path or if the port is not one. *)
Theorem C72_config : forall i c,
  main_config i = Some c <->
  (in_db_path i = Some (cf_db_path c) \/ in_db_path i = None /\ in_db_path_env i = Some (cf_db_path c))
  /\ (exists s, u16_from_str s = Some (cf_gossip_port c)
        /\ (in_port i = Some s \/ in_port i = None /\ (in_port_env i = Some s \/ in_port_env i = None /\ cf_gossip_port c = 7775%N /\ s = [55; 55; 55; 53]%N)))
  /\ cf_seeds c = parse_seeds (match in_seeds i with Some s => Some s | None => in_seeds_env i end).
Proof.
  intros [p pe t te s se] [dp gp sd]. unfold main_config, given. cbn [in_db_path in_db_path_env in_port in_port_env in_seeds in_seeds_env cf_db_path cf_gossip_port cf_seeds].
  set (port := match match t with Some x => Some x | None => te end with Some x => x | None => default_gossip_port end).
  set (seeds := parse_seeds (match s with Some x => Some x | None => se end)).
  assert (PORT : u16_from_str port = Some gp <-> exists x, u16_from_str x = Some gp /\ (t = Some x \/ t = None /\ (te = Some x \/ te = None /\ gp = 7775%N /\ x = [55; 55; 55; 53]%N))).
  { unfold port. destruct t as [x|]; [|destruct te as [x|]].
    - split; [intros E; exists x; auto|]. intros (y & E & [X|[X _]]); [congruence|discriminate X].
    - split; [intros E; exists x; auto|]. intros (y & E & [X|[_ [X|[X _]]]]); [discriminate X|congruence|discriminate X].
    - split; [intros E; exists default_gossip_port; split; [exact E|right; split; [reflexivity|right; split; [reflexivity|split; [|reflexivity]]]]; vm_compute in E; congruence|].
      intros (y & E & [X|[_ [X|(_ & _ & ->)]]]); [discriminate X..|exact E]. }
  rewrite <- PORT. clear PORT. destruct p as [x|]; [|destruct pe as [x|]].
  - destruct (u16_from_str port) as [q|]; split.
    + intros E. injection E as <- <- <-. auto.
    + intros ([A|[A _]] & B & ->); [congruence|discriminate A].
    + discriminate.
    + intros (_ & B & _). discriminate B.
  - destruct (u16_from_str port) as [q|]; split.
    + intros E. injection E as <- <- <-. auto.
    + intros ([A|[_ A]] & B & ->); [discriminate A|congruence].
    + discriminate.
    + intros (_ & B & _). discriminate B.
  - split; [discriminate|]. intros ([A|[_ A]] & _); discriminate A.
Qed.
Print Assumptions C72_config.

(** "+080" is a port, "65536" and "-1" are none; a port on the command line goes
    before the one in the environment. *)
Theorem C72_witness :
  u16_from_str [43; 48; 56; 48]%N = Some 80%N /\ u16_from_str [54; 53; 53; 51; 54]%N = None /\ u16_from_str [54; 53; 53; 51; 53]%N = Some 65535%N
  /\ u16_from_str [45; 49]%N = None /\ u16_from_str [] = None
  /\ main_config (mkinputs None (Some [47]%N) (Some [56; 48]%N) (Some [56; 49]%N) None (Some [97; 44; 32; 98]%N)) = Some (mkconfig [47]%N 80 [[97]; [98]]%N)
  /\ main_config (mkinputs (Some [47]%N) None None None None None) = Some (mkconfig [47]%N 7775 [[]])
  /\ main_config (mkinputs None None (Some [56; 48]%N) None None None) = None.
Proof. repeat split. Qed.
Print Assumptions C72_witness.
