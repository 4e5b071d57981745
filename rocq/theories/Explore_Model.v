(** Model of update_exploration_probability (src/rainbow.c:1232-1239), exact reals, and of the
    parameter checks made at construction (src/rainbow.c:106-130). *)
From Verif Require Import RealSum.
Open Scope R_scope.

(** rainbow.c:106-130: parameter checks (otherwise the constructor exits) *)
Definition accepted (max_eps min_eps decay eps : R) : Prop :=
  ~ (max_eps > 1) /\ ~ (min_eps <= 0) /\ ~ (min_eps > max_eps) /\ ~ (decay < 0) /\ ~ (eps < 0 \/ eps > 1).

(** rainbow.c:1232-1239 *)
Definition update_exploration (max_eps min_eps decay eps : R) : R :=
  let eps := eps * exp (- decay) in
  let eps := if decide (eps < min_eps) then min_eps else eps in
  let eps := if decide (eps > max_eps) then max_eps else eps in
  eps.

(** the exploration probability after k calls *)
Fixpoint epsilon_after (max_eps min_eps decay eps : R) (k : nat) : R :=
  match k with O => eps | S k => update_exploration max_eps min_eps decay (epsilon_after max_eps min_eps decay eps k) end.
