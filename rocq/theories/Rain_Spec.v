(** Specification of a training batch: shares of the reward classes, importance weights. *)
From Verif Require Import RealSum Cumul_Spec Replay_Spec Rewards_Spec.
Open Scope nat_scope.

(** The share a class with [len] members, [taken] of which are in the batch already, should have among
    classes of the given weights: (1/len)^beta while a member is left, nothing afterwards. *)
Definition class_weight (beta : R) (taken len : nat) : R :=
  if decide (taken < len) then Rpower (/ INR len) beta else 0%R.

(** How many of the slots of [batch] hold a transition of class k. *)
Definition in_class (c : nat) (h : list rop) (k : class) (batch part : list nat) : Prop :=
  NoDup part /\ forall j, j ∈ part <-> j ∈ batch /\ holds c h k j.

(** The order in which the classes share the draws. *)
Definition class_order : list class := [Negative; Positive; Neutral].
(** k is the class whose interval contains x, the intervals having the given lengths. *)
Definition class_interval (wt : class -> R) (x : R) (k : class) : Prop :=
  exists before after, class_order = before ++ k :: after /\
    (suml (map wt before) < x <= suml (map wt before) + wt k)%R.

(** The importance weight of the transition of rank k (0 = largest error) among [length]: the inverse of
    its probability, to the power beta, relative to the largest such weight. *)
Definition rank_probability (alpha : R) (length k : nat) : R :=
  (Rpower (/ INR (k + 1)) alpha / sumn length (fun j => Rpower (/ INR (j + 1)) alpha))%R.
Definition relative_weight (alpha beta : R) (length k : nat) : R :=
  Rpower (rank_probability alpha length (length - 1) / rank_probability alpha length k)%R beta.
