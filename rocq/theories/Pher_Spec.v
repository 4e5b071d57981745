(** What the pheromone updates of the ant-colony search promise.  Written without reference to the loops of the updates. *)
From Verif Require Export Aco_Spec.
Open Scope nat_scope.

Section spec.
Context {F : Type} (O : num F).

(** the edges of a trail from the node x on, each with the node at its end *)
Fixpoint trail_of (g : graph F) (x : nat) (t : list nat) : option (list (nat * nat)) :=
  match t with
  | [] => Some []
  | i :: t => n ← g_nodes g !! x; e ← o_outputs n !! i; y ← g_edges g !! e; l ← trail_of g (g_out y) t; Some ((e, g_out y) :: l)
  end.
(** e is an edge (u is a node) of the trail t *)
Definition edge_on (s : aco F) (t : list nat) (e : nat) : bool := match trail_of (s_graph s) 0 t with Some l => bool_decide (e ∈ l.*1) | None => false end.
Definition node_on (s : aco F) (t : list nat) (u : nat) : bool := match trail_of (s_graph s) 0 t with Some l => bool_decide (u ∈ l.*2) | None => false end.
(** the pheromones of the edges and of the nodes *)
Definition edge_pher (s : aco F) (e : nat) : option F := g_pher <$> g_edges (s_graph s) !! e.
Definition node_pher (s : aco F) (u : nat) : option F := o_pher <$> g_nodes (s_graph s) !! u.
Definition set_edge_phers (f : nat -> F -> F) (s : aco F) : aco F :=
  with_graph s (Graph (g_nodes (s_graph s)) (imap (fun e y => set_epher (f e (g_pher y)) y) (g_edges (s_graph s)))).
Definition set_node_phers (f : nat -> F -> F) (s : aco F) : aco F :=
  with_graph s (Graph (imap (fun u n => set_pher (f u (o_pher n)) n) (g_nodes (s_graph s))) (g_edges (s_graph s))).
(** what the ants whose trail has the edge e leave on it, in the order of the ants *)
Definition deposits (s : aco F) (e : nat) : list F := (filter (fun p => edge_on s p.1 e = true) (zip (s_trails s) (s_phers s))).*2.
(** no node is marked *)
Definition unmarked (s : aco F) : Prop := Forall (fun n => o_flag n = false) (g_nodes (s_graph s)).
(** the ant with the most pheromone, the first of them *)
Definition leads (s : aco F) (a : nat) (t : list nat) (x : F) : Prop :=
  s_trails s !! a = Some t /\ s_phers s !! a = Some x /\ choose_best O (s_phers s) = Some a.
End spec.

From Coq Require Import Reals.
Open Scope R_scope.
(** a search in good order: positive pheromones and credits, ordered bounds, no marks *)
Record healthy (s : aco R) : Prop := Healthy { h_edges : Forall (fun y => 0 < g_pher y) (g_edges (s_graph s)); h_nodes : Forall (fun n => 0 < o_pher n) (g_nodes (s_graph s));
  h_max : 0 < s_max s; h_order : s_min s <= s_max s; h_credits : Forall (fun x => 0 <= x) (s_phers s); h_best : 0 <= s_best_pher s; h_unmarked : unmarked s }.
(** a call that a program may make: existing ants, random numbers up to 1, credits that are not negative, update_taus not before there is a best trail,
    a period that is not 0.  update_pheromones_according_to_subnodes and the particle-swarm calls are not among them *)
Definition good (k : setup R) (c : call R) (s : aco R) : Prop :=
  match c with
  | Walk rnd ant | WalkNodes rnd ant | WalkSubnodes rnd _ _ ant => (ant < k_ants k)%nat /\ forall m, rnd m <= 1
  | WalkBest ant => (ant < k_ants k)%nat
  | Credit ant x => (ant < k_ants k)%nat /\ 0 <= x
  | SetBest x => 0 <= x
  | Taus => 0 < s_best_pher s
  | Reward | RewardNodes => (0 < k_ants k)%nat
  | RewardBest | RewardBestNodes => k_every k <> 0%nat
  | Refresh d | RefreshNodes d | RefreshIf _ d | RefreshNodesIf _ d => 0 <= d <= 1
  | Remember | RewardAll | Reset | Move _ => True
  | _ => False
  end.
(** one round of the search: every ant walks and gets its credit; the best trail is remembered, the bounds and the pheromones are updated *)
Definition round (rs : list (nat -> R)) (xs : list R) : list (call R) :=
  concat (imap (fun a (p : (nat -> R) * R) => [Walk p.1 a; Credit a p.2]) (zip rs xs)) ++ [Remember; Taus; Reward; RewardBest].
(** the first of the largest entries; x kept between two bounds; a sum *)
Definition first_max (l : list R) (a : nat) (x : R) : Prop := l !! a = Some x /\ forall j y, l !! j = Some y -> y <= x /\ ((j < a)%nat -> y < x).
Definition clamp (lo hi x : R) : R := Rmax lo (Rmin hi x).
Definition sum (l : list R) : R := foldr Rplus 0 l.
