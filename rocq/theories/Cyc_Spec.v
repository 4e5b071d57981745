(** Specification of a graph of connected structures. *)
From Verif Require Import Base Cyc_Model.
Open Scope nat_scope.

(** the nodes listed as inputs and as outputs *)
Definition ins (h : handler) : list nat := take (n_in h) (h_inputs h).
Definition outs (h : handler) : list nat := take (default 0 (n_out h)) (h_outputs h).

(** The arrays are as long as the counts say, the count of the outputs is set, and all entries are nodes. *)
Definition graph_ok (g : list handler) : Prop :=
  forall u h, g !! u = Some h -> n_in h <= length (h_inputs h) /\ (exists k, n_out h = Some k /\ k <= length (h_outputs h)) /\
    (forall v, v ∈ ins h -> v < length g) /\ (forall v, v ∈ outs h -> v < length g).
Definition unvisited (g : list handler) : Prop := forall u h, g !! u = Some h -> visited h = false.

(** u feeds v: v is listed as an output of u, or u as an input of v *)
Definition edge (g : list handler) (u v : nat) : Prop :=
  (exists h, g !! u = Some h /\ v ∈ outs h) \/ (exists h, g !! v = Some h /\ u ∈ ins h).
(** v is listed by u *)
Definition lists (g : list handler) (u v : nat) : Prop := exists h, g !! u = Some h /\ (v ∈ ins h \/ v ∈ outs h).
Definition reach (g : list handler) : nat -> nat -> Prop := rtc (lists g).

(** u and v are joined by an edge of the class E, in either direction *)
Definition joined (E : nat -> nat -> Prop) (u v : nat) : Prop := E u v \/ E v u.

(** A directed cycle: a closed walk along edges, given by its successive nodes *)
Definition succ_in (l : list nat) (u v : nat) : Prop :=
  exists i, l !! i = Some u /\ l !! ((i + 1) mod length l) = Some v.
Definition cycle (g : list handler) (l : list nat) : Prop := l <> [] /\ forall u v, succ_in l u v -> edge g u v.
Definition acyclic (g : list handler) : Prop := forall l, ~ cycle g l.
(** Every edge leads exactly one level down. *)
Definition graded (g : list handler) : Prop := exists level : nat -> Z, forall u v, edge g u v -> level v = (level u + 1)%Z.
