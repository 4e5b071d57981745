(** Model of the pheromones of the ant-colony search (aco_process.c, aco_iterate.c) and of its particle-swarm step.

    A float field that is assigned a double is rounded by [n_flt]; doubles are not rounded further than by the operations of [num]. *)
From Coq Require Import Reals.
From Verif Require Export Aco_Model.
Open Scope nat_scope.

Section pher.
Context {F : Type} (O : num F).
Notation "a +' b" := (n_add O a b) (at level 50, left associativity). Notation "a -' b" := (n_sub O a b) (at level 50, left associativity).
Notation "a *' b" := (n_mul O a b) (at level 40, left associativity). Notation "a /' b" := (n_div O a b) (at level 40, left associativity).
Let zero : F := n_z O 0.
Let one : F := n_z O 1.
Notation aco := (aco F). Notation graph := (graph F). Notation node := (node F). Notation edge := (edge F).

Definition with_graph (s : aco) (g : graph) : aco :=
  Aco g (s_nodes s) (s_edges s) (s_layers s) (s_sizes s) (s_widths s) (s_depths s) (s_p s) (s_pdec s) (s_max s) (s_min s) (s_average s)
    (s_iter s) (s_every s) (s_best s) (s_best_pher s) (s_trails s) (s_phers s).
Definition with_iter (s : aco) (i : nat) : aco :=
  Aco (s_graph s) (s_nodes s) (s_edges s) (s_layers s) (s_sizes s) (s_widths s) (s_depths s) (s_p s) (s_pdec s) (s_max s) (s_min s) (s_average s)
    i (s_every s) (s_best s) (s_best_pher s) (s_trails s) (s_phers s).
Definition with_best (s : aco) (b : list nat) (x : F) : aco :=
  Aco (s_graph s) (s_nodes s) (s_edges s) (s_layers s) (s_sizes s) (s_widths s) (s_depths s) (s_p s) (s_pdec s) (s_max s) (s_min s) (s_average s)
    (s_iter s) (s_every s) b x (s_trails s) (s_phers s).
Definition with_taus (s : aco) (mx mn : F) : aco :=
  Aco (s_graph s) (s_nodes s) (s_edges s) (s_layers s) (s_sizes s) (s_widths s) (s_depths s) (s_p s) (s_pdec s) mx mn (s_average s)
    (s_iter s) (s_every s) (s_best s) (s_best_pher s) (s_trails s) (s_phers s).
Definition with_phers (s : aco) (l : list F) : aco :=
  Aco (s_graph s) (s_nodes s) (s_edges s) (s_layers s) (s_sizes s) (s_widths s) (s_depths s) (s_p s) (s_pdec s) (s_max s) (s_min s) (s_average s)
    (s_iter s) (s_every s) (s_best s) (s_best_pher s) (s_trails s) l.

(** aco_process.c:209-220 update_best_trail *)
Definition update_best_trail (s : aco) : option aco :=
  for_loop (length (s_trails s)) 0 (fun i s =>
    x ← rd (s_phers s) i; t ← rd (s_trails s) i; Some (if n_lt O (s_best_pher s) x then with_best s t x else s)) s.
(** aco_process.c:222-224 set_pheromone_best_trail *)
Definition set_pheromone_best_trail (x : F) (s : aco) : aco := with_best s (s_best s) x.
(** aco_process.c:226-233 update_taus *)
Definition update_taus (s : aco) : aco :=
  let mx := (one /' (one -' s_p s)) *' s_best_pher s in
  if n_lt O (s_max s) mx || (s_iter s =? 1) then
    let mx := n_flt O mx in
    let mn := n_flt O (mx *' (one -' s_pdec s) /' ((s_average s -' one) *' s_pdec s)) in
    with_taus s mx (if n_lt O mx mn then mx else mn)
  else s.
(** aco_process.c:235-239 set_pheromone_to_index; number_of_ants is the length of pheromones *)
Definition set_pheromone_to_index (index : nat) (x : F) (s : aco) : option aco :=
  if decide (length (s_phers s) < index) then Some s else l ← wr (s_phers s) index x; Some (with_phers s l).

(** aco_iterate.c:506-511 the assignment of update_aco_tracker_next_according_to_path: the upper bound, then the lower one *)
Definition bound (s : aco) (x : F) : F := let x := if n_lt O (s_max s) x then s_max s else x in if n_lt O x (s_min s) then s_min s else x.
Definition deposit_edge (s : aco) (ph : F) (e : edge) : edge := set_eflag true (set_epher (bound s (g_pher e *' s_p s +' ph)) e).
Definition deposit_node (s : aco) (ph : F) (n : node) : node := set_flag true (set_pher (bound s (o_pher n *' s_p s +' ph)) n).
(** aco_iterate.c:564-580 update_aco_tracker_next_according_to_path_no_min_max: the edge fades unless it was visited before *)
Definition deposit_free (s : aco) (ph : F) (e : edge) : edge :=
  set_eflag true (set_epher ((if g_flag e then g_pher e else g_pher e *' s_p s) +' ph) e).
(** the recursion of aco_iterate.c:498-580 along a path from node x on; [f] is applied to the edge and [h k] to the node at its end at step k *)
Fixpoint along (f : edge -> edge) (h : nat -> node -> node) (k : nat) (x : nat) (path : list nat) (g : graph) : option graph :=
  match path with
  | [] => Some g
  | i :: path =>
    n ← rd (g_nodes g) x;
    if decide (o_outputs n = []) then Some g else
    e ← rd (o_outputs n) i; y ← rd (g_edges g) e;
    g ← on_edge f e g; g ← on_node (h k) (g_out y) g; along f h (S k) (g_out y) path g
  end.
Definition on_path_edges (f : edge -> edge) : list nat -> graph -> option graph := along f (fun _ n => n) 0 0.
Definition on_path_nodes (h : nat -> node -> node) : list nat -> graph -> option graph := along (fun e => e) h 0 0.

(** aco_process.c:265-275 (and 283-293, 307-317): what was not visited fades, within the bounds; the flags are cleared *)
Definition fade (s : aco) (x : F) : F := let x := x *' s_p s in let x := if n_lt O x (s_min s) then s_min s else x in if n_lt O (s_max s) x then s_max s else x.
(** aco_process.c:342-350 (and 361-369, 385-393): the lower bound only *)
Definition fade_low (s : aco) (x : F) : F := let x := x *' s_p s in if n_lt O x (s_min s) then s_min s else x.
Definition fade_edge (f : F -> F) (e : edge) : edge := if g_flag e then set_eflag false e else set_epher (f (g_pher e)) e.
Definition fade_node (f : F -> F) (n : node) : node := if o_flag n then set_flag false n else set_pher (f (o_pher n)) n.

(** aco_process.c:398-409 update_graph_pheromone_from_trail: the first of the best ants *)
Definition best_ant (s : aco) : option (list nat * F) :=
  i ← choose_best O (s_phers s); t ← rd (s_trails s) i; x ← rd (s_phers s) i; Some (t, x).
(** aco_process.c:262-278 update_pheromones *)
Definition update_pheromones (s : aco) : option aco :=
  b ← best_ant s;
  g ← on_path_edges (deposit_edge s b.2) b.1 (s_graph s);
  g ← each (on_edge (fade_edge (fade s))) (s_edges s) g;
  Some (with_iter (with_graph s g) (S (s_iter s))).
(** aco_process.c:280-296 update_pheromones_according_to_nodes *)
Definition update_pheromones_nodes (s : aco) : option aco :=
  b ← best_ant s;
  g ← on_path_nodes (fun _ => deposit_node s b.2) b.1 (s_graph s);
  g ← each (on_node (fade_node (fade s))) (s_nodes s) g;
  Some (with_iter (with_graph s g) (S (s_iter s))).
(** aco_process.c:298-320 update_pheromones_according_to_subnodes; from and to are (int)(number_of_nodes*percentage).
    The deposit counts the steps of the path, the fading counts the nodes in the order of s->nodes *)
Definition sub_deposit (s : aco) (ph : F) (from to : nat) (k : nat) (n : node) : node := if decide (from <= k < to) then deposit_node s ph n else n.
Definition update_pheromones_subnodes (from to : nat) (s : aco) : option aco :=
  if decide (to < from) then None else
  b ← best_ant s;
  g ← on_path_nodes (sub_deposit s b.2 from to) b.1 (s_graph s);
  g ← for_loop (to - from) from (fun i g => x ← rd (s_nodes s) i; on_node (fade_node (fade s)) x g) g;
  Some (with_iter (with_graph s g) (S (s_iter s))).
(** aco_process.c:322-334 update_pheromones_no_min_max; 439-445 update_graph_pheromone_from_trail_no_min_max: all the ants *)
Definition update_pheromones_free (s : aco) : option aco :=
  g ← for_loop (length (s_phers s)) 0 (fun i g => t ← rd (s_trails s) i; x ← rd (s_phers s) i; on_path_edges (deposit_free s x) t g) (s_graph s);
  g ← each (on_edge (fade_edge (fun x => x *' s_p s))) (s_edges s) g;
  Some (with_iter (with_graph s g) (S (s_iter s))).
(** aco_process.c:336-353 update_pheromones_best; a period of 0 is a division by zero *)
Definition due (s : aco) : option bool := if decide (s_every s = 0) then None else Some (s_iter s mod s_every s =? 0).
Definition update_pheromones_best (s : aco) : option aco :=
  b ← due s;
  if b : bool then
    g ← on_path_edges (deposit_edge s (s_best_pher s)) (s_best s) (s_graph s);
    g ← each (on_edge (fade_edge (fade_low s))) (s_edges s) g; Some (with_graph s g)
  else Some s.
(** aco_process.c:355-372 update_pheromones_best_according_to_nodes *)
Definition update_pheromones_best_nodes (s : aco) : option aco :=
  b ← due s;
  if b : bool then
    g ← on_path_nodes (fun _ => deposit_node s (s_best_pher s)) (s_best s) (s_graph s);
    g ← each (on_node (fade_node (fade_low s))) (s_nodes s) g; Some (with_graph s g)
  else Some s.

(** aco_process.c:587-599 get_stagnation, 601-613 get_stagnation_according_to_nodes *)
Definition slack (s : aco) (x : F) : F := let a := s_max s -' x in let b := x -' s_min s in if n_lt O a b then a else b.
Definition stagnation_of (s : aco) (phs : list F) : F :=
  let n := n_z O (Z.of_nat (length (s_nodes s))) in foldl (fun a x => a +' slack s x) zero phs /' (n *' n).
Definition get_stagnation (s : aco) : option F := phs ← mapM (fun e => y ← rd (g_edges (s_graph s)) e; Some (g_pher y)) (s_edges s); Some (stagnation_of s phs).
Definition get_stagnation_nodes (s : aco) : option F := phs ← mapM (fun e => y ← rd (g_nodes (s_graph s)) e; Some (o_pher y)) (s_nodes s); Some (stagnation_of s phs).
(** aco_process.c:629-638 recompute_pheromones, 640-645 recompute_pheromones_according_to_nodes (without the bounds) *)
Definition recompute_pheromones (delta : F) (s : aco) : option aco :=
  g ← each (on_edge (fun e => set_epher (bound s (g_pher e +' delta *' (s_max s -' g_pher e))) e)) (s_edges s) (s_graph s); Some (with_graph s g).
Definition recompute_pheromones_nodes (delta : F) (s : aco) : option aco :=
  g ← each (on_node (fun n => set_pher (o_pher n +' delta *' (s_max s -' o_pher n)) n)) (s_nodes s) (s_graph s); Some (with_graph s g).
(** aco_process.c:654-659 recompute_pheromones_according_to_stagnation, 661-666 ..._according_to_nodes; the stagnation is returned *)
Definition recompute_if_stagnant (threshold delta : F) (s : aco) : option (aco * F) :=
  x ← get_stagnation s; s' ← (if n_lt O x threshold then recompute_pheromones delta s else Some s); Some (s', x).
Definition recompute_if_stagnant_nodes (threshold delta : F) (s : aco) : option (aco * F) :=
  x ← get_stagnation_nodes s; s' ← (if n_lt O x threshold then recompute_pheromones_nodes delta s else Some s); Some (s', x).

(** aco_process.c:677-688 calculate_pso_function_per_node, 690-697 ..._according_to_nodes.  node_state of the root is arbitrary, and whatever it
    is nothing happens to its weights: only the nodes with weights are touched here *)
Definition is_weight (b : body F) : bool := match b with Weight _ _ _ _ => true | _ => false end.
Definition weight_of (n : node) : F := match o_body n with Weight _ _ _ x => x | _ => zero end.
Definition set_input (v : F) (x : node) : node :=
  Node (o_body x) (o_inputs x) (o_outputs x) (o_flag x) (o_pher x) v (o_personal x) (o_global x) (o_v x) (o_best x) (o_gparams x).
Definition set_personal (v w : F) (x : node) : node :=
  Node (o_body x) (o_inputs x) (o_outputs x) (o_flag x) (o_pher x) (o_input x) v (o_global x) (o_v x) w (o_gparams x).
Definition set_global (v : F) (p : option nat) (x : node) : node :=
  Node (o_body x) (o_inputs x) (o_outputs x) (o_flag x) (o_pher x) (o_input x) (o_personal x) v (o_v x) (o_best x) p.
Definition set_weight (w : F) (x : node) : node :=
  Node (match o_body x with Weight a b c _ => Weight a b c w | y => y end) (o_inputs x) (o_outputs x) (o_flag x) (o_pher x) (o_input x) (o_personal x)
    (o_global x) (o_v x) (o_best x) (o_gparams x).
Definition set_v (v : F) (x : node) : node :=
  Node (o_body x) (o_inputs x) (o_outputs x) (o_flag x) (o_pher x) (o_input x) (o_personal x) (o_global x) v (o_best x) (o_gparams x).
Definition pso_function (s : aco) : option aco :=
  g ← each (fun i g => n ← rd (g_nodes g) i;
        if is_weight (o_body n) then
          phs ← mapM (fun e => y ← rd (g_edges g) e; Some (g_pher y)) (o_inputs n); on_node (set_input (foldl (n_add O) zero phs)) i g
        else Some g) (s_nodes s) (s_graph s);
  Some (with_graph s g).
Definition pso_function_nodes (s : aco) : option aco :=
  g ← each (on_node (fun n => if is_weight (o_body n) then set_input (o_pher n) n else n)) (s_nodes s) (s_graph s); Some (with_graph s g).
(** aco_process.c:699-710 set_best_personal_node_fitness_pso *)
Definition best_personal (s : aco) : option aco :=
  g ← each (on_node (fun n => if is_weight (o_body n) && n_lt O (o_personal n) (o_input n) then set_personal (o_input n) (weight_of n) n else n)) (s_nodes s) (s_graph s);
  Some (with_graph s g).
(** aco_process.c:735-756 set_best_global_node_fitness_pso_according_to_nodes (rows = sizes[i]*sizes[i+1]) and 712-733
    set_best_global_node_fitness_pso (rows = 4*depths[i]-3): the candidates of one weight share the best of their personal bests *)
Definition best_of_row (g : graph) (row : list nat) : option (F * option nat) :=
  foldl (fun st i => st ← st; n ← rd (g_nodes g) i; Some (if n_lt O st.1 (o_personal n) then (o_personal n, if is_weight (o_body n) then Some i else st.2) else st))
    (Some (n_z O (-1), None)) row.
Definition row_of (nodes : list nat) (width j : nat) : option (list nat) := mapM (fun k => rd nodes (j * width + k)) (seq 0 width).
Definition share_row (nodes : list nat) (width j : nat) (g : graph) : option graph :=
  row ← row_of nodes width j; b ← best_of_row g row; each (on_node (set_global b.1 b.2)) row g.
Definition best_global_by (rows : nat -> option nat) (s : aco) : option aco :=
  g ← for_loop (length (s_sizes s) - 1) 0 (fun i g =>
        r ← rows i; w ← rd (s_widths s) i; nodes ← rd (s_layers s) i; for_loop r 0 (share_row nodes w) g) (s_graph s);
  Some (with_graph s g).
Definition rows_of_sizes (s : aco) (i : nat) : option nat := a ← rd (s_sizes s) i; b ← rd (s_sizes s) (i + 1); Some (a * b).
Definition rows_of_depths (s : aco) (i : nat) : option nat := d ← rd (s_depths s) i; Some (4 * d - 3).
Definition best_global_nodes (s : aco) : option aco := best_global_by (rows_of_sizes s) s.
Definition best_global (s : aco) : option aco := best_global_by (rows_of_depths s) s.
(** aco_process.c:777-809 update_pso_nodes; [r1 i] and [r2 i] are what r2() returns for the node i; 447-455 reset_flags_from_aco_struct *)
Record swarm := Swarm { w_inertia : F; w_c1 : F; w_c2 : F; w_vmax : F }.
Definition differ (x y : F) : bool := negb (n_le O x y && n_le O y x).
Definition pso_step (w : swarm) (r1 r2 : nat -> F) (i : nat) (g : graph) : option graph :=
  n ← rd (g_nodes g) i; p ← o_gparams n; m ← rd (g_nodes g) p;
  if differ (o_best m) (weight_of n) then
    let v := w_inertia w *' o_v n +' w_c1 w *' r1 i *' (o_best n -' weight_of n) +' w_c2 w *' r2 i *' (o_best m -' weight_of n) in
    let v := if n_lt O (w_vmax w) v then w_vmax w else v in
    let v := if n_lt O v (zero -' w_vmax w) then zero -' w_vmax w else v in
    on_node (fun n => set_weight (n_flt O (weight_of n +' v)) (set_v v n)) i g
  else Some g.
Definition reset_flags (s : aco) : option aco :=
  g ← each (on_node (set_flag false)) (s_nodes s) (s_graph s); g ← each (on_edge (set_eflag false)) (s_edges s) g; Some (with_graph s g).
Definition update_pso (w : swarm) (r1 r2 : nat -> F) (s : aco) : option aco :=
  g ← for_loop (length (s_sizes s) - 1) 0 (fun i g =>
        r ← rows_of_sizes s i; w_ ← rd (s_widths s) i; nodes ← rd (s_layers s) i;
        for_loop r 0 (fun j g => row ← row_of nodes w_ j; each (pso_step w r1 r2) row g) g) (s_graph s);
  reset_flags (with_graph s g).
End pher.
Arguments swarm : clear implicits. Arguments Swarm {F}.
