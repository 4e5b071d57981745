(** What the particle-swarm step of the ant-colony search promises.  Written without reference to its loops. *)
From Coq Require Import Reals.
From Verif Require Export Aco_Spec.
Open Scope nat_scope.

Section spec.
Context {F : Type}.
(** the node of the candidate c for the weight q of the layer i *)
Definition particle (s : aco F) (i q c : nat) : option nat := w ← s_widths s !! i; ids ← s_layers s !! i; ids !! (q * w + c).
(** the candidates that exist: layer i, weight q, candidate c *)
Definition in_space (k : setup F) (i q c : nat) : Prop := exists a b w, k_sizes k !! i = Some a /\ k_sizes k !! (i + 1) = Some b /\ k_widths k !! i = Some w /\ q < a * b /\ c < w.
Definition is_particle (k : setup F) (s : aco F) (u : nat) : Prop := exists i q c, in_space k i q c /\ particle s i q c = Some u.
(** the node u of s *)
Definition at_ (s : aco F) (u : nat) : option (node F) := g_nodes (s_graph s) !! u.
(** every candidate has a best candidate to follow *)
Definition has_leaders (k : setup F) (s : aco F) : Prop := forall u n, is_particle k s u -> at_ s u = Some n -> exists p m, o_gparams n = Some p /\ at_ s p = Some m.
End spec.

Open Scope R_scope.
(** the pheromones of the edges into a node, in order *)
Definition inflow (s : aco R) (n : node R) : R := foldr Rplus 0 (omap (fun e => g_pher <$> g_edges (s_graph s) !! e) (o_inputs n)).
(** the velocity of a particle: its old one, the pull of its own best place and the pull of the best place of its row, within v_max *)
Definition velocity (w : swarm R) (r1 r2 v here own best : R) : R :=
  Rmax (- w_vmax w) (Rmin (w_vmax w) (w_inertia w * v + w_c1 w * r1 * (own - here) + w_c2 w * r2 * (best - here))).
(** a round of the swarm *)
Definition swarm_round (w : swarm R) (r1 r2 : nat -> R) : list (call R) := [FitnessNodes; Personal; GlobalNodes; Swarm_step w r1 r2].
