(** Model of the n-step return computation of train_rainbow (src/rainbow.c:1713-1750), over exact reals.
    A slot is None until a transition was stored in it (buffer_state_t[k] == NULL). *)
From Verif Require Import RealSum NStep_Spec.
Open Scope nat_scope.

Section nstep.
  Context {S : Type}.
  (** temp_rewards[i] so far, temp_states_t_1[i] (NULL = None), temp_nonterminal_state_t_1[i], lambdas[i]
      (None: not written by this call) *)
  Record nres := mkN { n_reward : R; n_next : option S; n_nonterminal : option bool; n_lambda : option R }.

  (** rainbow.c:1720-1743: iterations j, j+1, ... of the inner loop ([k] iterations left); returns
      the result and the final value of j *)
  Fixpoint n_loop (max cur : nat) (slots : list (option (transition S))) (lambda_value : R) (b k j : nat)
      (cycled : bool) (lambda : R) (acc : nres) : option (nres * nat) :=
    match k with
    | 0 => Some (acc, j)
    | Datatypes.S k =>
        let index := (b + j) mod max in
        let cycled := if negb cycled && (index <? b + j) then true else cycled in
        if cycled && (cur <=? index) then Some (acc, j) else
        if (b <? cur) && (cur <=? b + j) then Some (acc, j) else
        o ← rd slots index; x ← o;
        let acc := mkN (n_reward acc + lambda * reward x)%R (Some (next_state x)) (Some (nonterminal x)) (n_lambda acc) in
        if nonterminal x then
          let lambda := (lambda * lambda_value)%R in
          n_loop max cur slots lambda_value b k (j + 1) cycled lambda
            (mkN (n_reward acc) (n_next acc) (n_nonterminal acc) (Some lambda))
        else Some (acc, j)
    end.

  (** rainbow.c:1713-1750 for one element b of the batch.  The fallback for a NULL state
      (1744-1749) decrements j, which is 0 whenever it is reached: index b-1. *)
  Definition n_step (max cur : nat) (slots : list (option (transition S))) (lambda_value : R) (b n : nat) : option nres :=
    p ← n_loop max cur slots lambda_value b n 0 false 1%R (mkN 0%R None None None);
    match n_next p.1 with
    | Some _ => Some p.1
    | None => if decide (b + p.2 = 0) then None else
        o ← rd slots ((b + p.2 - 1) mod max); x ← o;
        Some (mkN (n_reward p.1) (Some (next_state x)) (Some (nonterminal x)) (n_lambda p.1))
    end.
End nstep.
Arguments nres : clear implicits.
