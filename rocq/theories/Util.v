(** Model of /repo/src/store/encoding/util.rs *)
From Verif Require Import Base.
Open Scope N_scope.

(** util.rs:16-19 [round_upto_power_of_2].  The [debug_assert!] is active
    exactly when overflow checks are (cargo's default profiles); its [&&] short
    circuits, so its [factor - 1] cannot underflow. *)
Definition round_upto_power_of_2 (p : profile) (num factor : N) : outcome N :=
  let* _ := match p with
            | Debug => if (0 <? factor) && (N.land factor (factor - 1) =? 0)
                       then Ret tt else Panic PAssert
            | Release => Ret tt
            end in
  let* fm1 := sub64 p factor 1 in
  let* s := add64 p num fm1 in
  Ret (N.land s (N.lxor fm1 (u64_lim - 1))).

(** util.rs:21-23 [ceil8] *)
Definition ceil8 (value : N) : N := value / 8 + (if value mod 8 =? 0 then 0 else 1).
