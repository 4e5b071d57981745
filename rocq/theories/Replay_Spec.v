(** Specification of a prioritised ring buffer, independent of the implementation. *)
From Verif Require Import Base Order.
Open Scope nat_scope.

(** What slot k of a ring of n slots holds after storing the transitions [xs] in order: the latest
    one whose position in the history is congruent to k modulo n. *)
Definition latest_in_slot {T} (n : nat) (xs : list T) (k : nat) (o : option T) : Prop :=
  match o with
  | Some t => exists j, xs !! j = Some t /\ j mod n = k /\ forall j', j < j' < length xs -> j' mod n <> k
  | None => forall j, j < length xs -> j mod n <> k
  end.

(** Number of transitions stored after [m] additions. *)
Definition stored (n m : nat) : nat := Nat.min n m.

(** v is at least every priority of the slots 0..n-1. *)
Definition is_top {V} (ltb : V -> V -> bool) (errs : list V) (n : nat) (v : V) : Prop :=
  (exists k, k < n /\ errs !! k = Some v) /\ forall k u, k < n -> errs !! k = Some u -> ltb v u = false.

(** The calls a user makes on the buffer: storing a transition, or (at the end of a training step)
    storing a new error for the transition sampled at heap position pos. *)
Inductive op (T V : Type) := Add (t : T) | SetError (pos : nat) (e : V).
Arguments Add {T V} t.
Arguments SetError {T V} pos e.

(** The transitions added by a history, in order. *)
Fixpoint added {T V} (os : list (op T V)) : list T :=
  match os with [] => [] | Add t :: os => t :: added os | SetError _ _ :: os => added os end.

(** Errors are only stored for occupied positions of the buffer ([m] additions so far, capacity c). *)
Fixpoint valid_history {T V} (c m : nat) (os : list (op T V)) : Prop :=
  match os with
  | [] => True
  | Add _ :: os => valid_history c (m + 1) os
  | SetError pos _ :: os => pos < stored c m /\ valid_history c m os
  end.

(** After a training step every sampled slot carries the error computed for it (repeated samples
    keep the error of their first occurrence). *)
Definition errors_recorded {V} (batch : list nat) (new_errs errs' : list V) : Prop :=
  forall i s e, batch !! i = Some s -> (forall j, j < i -> batch !! j <> Some s) ->
    new_errs !! i = Some e -> errs' !! s = Some e.
