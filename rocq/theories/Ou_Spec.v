(** What the exploration noise should do *)
From Coq Require Import Reals Lra Floats.SpecFloat.
From Verif Require Import NumLib Duel_Model Ou_Model.
Open Scope nat_scope.

(** one call of get_action: the time, the normal noises drawn, the actions before *)
Record call (F : Type) := Call { c_t : N; c_xi : nat -> F; c_actions : list F }.
Arguments Call {F}. Arguments c_t {F}. Arguments c_xi {F}. Arguments c_actions {F}.
(** any number of calls; the result lists the actions of all of them *)
Fixpoint play {F} (O : arith F) (cs : list (call F)) (o : ou F) : option (ou F * list (list F)) :=
  match cs with
  | [] => Some (o, [])
  | c :: cs => r ← get_action O (c_xi c) (c_t c) o (c_actions c); s ← play O cs (r.1); Some (s.1, r.2 :: s.2)
  end.
(** arrays of the right size and a non-zero decay period *)
Definition well_formed {F} (o : ou F) : Prop :=
  length (ou_state o) = ou_dim o /\ length (ou_max o) = ou_dim o /\ length (ou_min o) = ou_dim o /\ ou_decay o <> 0%N.
Definition enough {F} (o : ou F) (c : call F) : Prop := ou_dim o <= length (c_actions c).

(** reals *)
Definition bounds_R (o : ou R) : Prop := forall i, i < ou_dim o -> (el (ou_min o) i <= el (ou_max o) i)%R.
Definition in_range_R (o : ou R) (a : list R) : Prop := forall i, i < ou_dim o -> (el (ou_min o) i <= el a i <= el (ou_max o) i)%R.

(** floats: the bounds are numbers with min <= max; every action is in range or NaN *)
Definition number (x : spec_float) : Prop := x <> S754_nan.
Definition bounds_F (o : ou spec_float) : Prop :=
  forall i lo hi, ou_min o !! i = Some lo -> ou_max o !! i = Some hi -> number lo /\ number hi /\ SFleb lo hi = true.
Definition in_range_F (o : ou spec_float) (a : list spec_float) : Prop :=
  forall i x lo hi, i < ou_dim o -> a !! i = Some x -> ou_min o !! i = Some lo -> ou_max o !! i = Some hi ->
    number x -> SFleb lo x = true /\ SFleb x hi = true.
