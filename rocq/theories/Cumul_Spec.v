(** Specification: binary-tree ancestors and sampling proportional to weights. *)
From Verif Require Import RealSum.
Open Scope nat_scope.

(** i is a proper ancestor of j in the implicit binary tree (parent of j is (j-1)/2). *)
Definition ancestor (i j : nat) : Prop := i <> j /\ exists k, Nat.iter k (fun x => (x - 1) / 2) j = i.

(** s is the total of the weights of the elements of [0,n) that satisfy P: for every duplicate-free
    list of exactly these elements. *)
Definition total_over (w : list R) (n : nat) (P : nat -> Prop) (s : R) : Prop :=
  forall l, NoDup l -> (forall j, j ∈ l <-> j < n /\ P j) -> s = suml (map (fun j => default 0%R (w !! j)) l).

(** weight of an element that may already be taken *)
Definition free_weight (w : list R) (taken : list nat) (j : nat) : R :=
  if decide (j ∈ taken) then 0%R else default 0%R (w !! j).

(** k is the element of the list [order] whose interval contains x: the free weights before k add up
    to less than x, and together with k's weight to at least x. *)
Definition interval_of (w : list R) (taken order : list nat) (x : R) (k : nat) : Prop :=
  exists before after, order = before ++ k :: after /\
    (suml (map (free_weight w taken) before) < x <= suml (map (free_weight w taken) before) + free_weight w taken k)%R.
