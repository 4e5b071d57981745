(** Specification of n-step returns on the history of transitions. *)
From Verif Require Import RealSum.

Record transition (S : Type) := mkTr { reward : R; nonterminal : bool; next_state : S }.
Arguments mkTr {S}. Arguments reward {S}. Arguments nonterminal {S}. Arguments next_state {S}.

(** The beginning of a trajectory up to and including its first terminal transition. *)
Fixpoint up_to_terminal {S} (xs : list (transition S)) : list (transition S) :=
  match xs with
  | [] => []
  | x :: xs => x :: (if nonterminal x then up_to_terminal xs else [])
  end.

(** The at most n transitions that follow (and include) the t-th of the history, not crossing an episode end. *)
Definition n_step_window {S} (xs : list (transition S)) (t n : nat) : list (transition S) :=
  up_to_terminal (take n (drop t xs)).

(** r_0 + lam r_1 + lam^2 r_2 + ... *)
Definition discounted {S} (lam : R) (w : list (transition S)) : R :=
  sumn (length w) (fun j => (lam ^ j * default 0 (reward <$> w !! j))%R).
