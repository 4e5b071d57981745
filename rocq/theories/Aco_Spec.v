(** What the ant-colony search promises: which setups are valid, which networks belong to a setup, and the calls that a program makes.
    Written without reference to how the graph is built. *)
From Verif Require Export Aco_Model Aco2_Model.
Open Scope nat_scope.

Section spec.
Context {F : Type} (O : num F).

(** a call of init_aco that respects its documentation: at least two layers, all of positive size and with at least one candidate for each
    weight, an entry of every array for every layer, depths of at least 3, and a p that is not refused *)
Record setup_ok (k : setup F) : Prop := SetupOk { ok_layers : 2 <= length (k_sizes k); ok_sizes : Forall (fun n => 0 < n) (k_sizes k);
  ok_widths : length (k_widths k) = length (k_sizes k); ok_width : Forall (fun w => 0 < w) (k_widths k);
  ok_acts : length (k_sizes k) - 1 <= length (k_acts k); ok_ndepths : length (k_depths k) = length (k_sizes k); ok_depths : Forall (fun d => 3 <= d) (k_depths k);
  ok_p : n_lt O (k_p k) (n_z O 0) || n_lt O (n_z O 1) (k_p k) = false }.

(** the current value of the candidate c for the weight q of the layer i: nodes_layers[i][q*width+c]->weights->single_p *)
Definition candidate (s : aco F) (i q c : nat) : option F :=
  w ← s_widths s !! i; ids ← s_layers s !! i; id ← ids !! (q * w + c); n ← g_nodes (s_graph s) !! id;
  match o_body n with Weight _ _ _ x => Some x | _ => None end.
(** the activations that a layer may have: the one that was asked for, or any of NO_ACTIVATION, SIGMOID, RELU, TANH, LEAKY_RELU, ELU *)
Definition allowed (a : option nat) (flag : nat) : Prop := match a with Some x => flag = x | None => flag ∈ [0; 1; 2; 4; 5; 6] end.

(** one choice for a layer: a candidate for every weight, and an activation *)
Record choice := Choice { c_candidates : list nat; c_act : nat }.
(** the layer i of the network for a choice *)
Definition layer_for (k : setup F) (s : aco F) (i : nat) (c : choice) (l : layer F) : Prop :=
  exists input output width act, k_sizes k !! i = Some input /\ k_sizes k !! (i + 1) = Some output /\ k_widths k !! i = Some width /\ k_acts k !! i = Some act /\
    l_in l = input /\ l_out l = output /\ l_biases l = replicate output (n_z O 0) /\ l_act l = c_act c /\ allowed act (c_act c) /\
    length (l_weights l) = input * output /\ length (c_candidates c) = input * output /\
    forall q, q < input * output -> exists j x, c_candidates c !! q = Some j /\ j < width /\ l_weights l !! q = Some x /\ candidate s i q j = Some x.
(** a network with all the layers, each for its choice *)
Definition network_for (k : setup F) (s : aco F) (cs : list choice) (m : list (layer F)) : Prop :=
  length cs = length (k_sizes k) - 1 /\ length m = length (k_sizes k) - 1 /\
  forall i c l, cs !! i = Some c -> m !! i = Some l -> layer_for k s i c l.
(** a choice that exists: the right number of candidates, each below the width; an allowed activation *)
Definition choice_ok (k : setup F) (i : nat) (c : choice) : Prop :=
  exists input output width act, k_sizes k !! i = Some input /\ k_sizes k !! (i + 1) = Some output /\ k_widths k !! i = Some width /\ k_acts k !! i = Some act /\
    length (c_candidates c) = input * output /\ Forall (fun j => j < width) (c_candidates c) /\ allowed act (c_act c).

(** the size of the graph: a root; per layer the candidates, a fully-connected node and the activations *)
Definition n_acts (a : option nat) : nat := match a with Some _ => 1 | None => 6 end.
Fixpoint count_nodes (sizes widths : list nat) (acts : list (option nat)) : nat :=
  match sizes, widths, acts with
  | a :: ((b :: _) as sizes), w :: widths, c :: acts => w * (a * b) + 1 + n_acts c + count_nodes sizes widths acts
  | _, _, _ => 0
  end.
(** the edges: from what comes before to the candidates of the first weight, from the candidates of each weight to those of the next, to the
    fully-connected node, to the activations *)
Fixpoint count_edges (before : nat) (sizes widths : list nat) (acts : list (option nat)) : nat :=
  match sizes, widths, acts with
  | a :: ((b :: _) as sizes), w :: widths, c :: acts => before * w + w * w * (a * b - 1) + w + n_acts c + count_edges (n_acts c) sizes widths acts
  | _, _, _ => 0
  end.

(** the number of steps from the root to an activation of the last layer: one per weight, one to the fully-connected node, one to the activation *)
Fixpoint path_length (sizes : list nat) : nat := match sizes with a :: ((b :: _) as sizes) => a * b + 2 + path_length sizes | _ => 0 end.

(** what a program does with an aco_struct.  [Move f] stands for any update of the candidates (update_woa_nodes, update_fa_nodes, update_gsa_nodes,
    update_psogsa_nodes and assignments to single_p): the candidate of node i becomes f i *)
Inductive call :=
| Walk (rnd : nat -> F) (ant : nat) | WalkNodes (rnd : nat -> F) (ant : nat) | WalkSubnodes (rnd : nat -> F) (from to ant : nat) | WalkBest (ant : nat)
| Credit (ant : nat) (x : F) | Remember | SetBest (x : F) | Taus
| Reward | RewardNodes | RewardSubnodes (from to : nat) | RewardAll | RewardBest | RewardBestNodes
| Refresh (delta : F) | RefreshNodes (delta : F) | RefreshIf (threshold delta : F) | RefreshNodesIf (threshold delta : F)
| Fitness | FitnessNodes | Personal | Global | GlobalNodes | Swarm_step (w : swarm F) (r1 r2 : nat -> F) | Reset | Move (f : nat -> F).
Definition move (f : nat -> F) (s : aco F) : aco F := with_graph s (Graph (imap (fun i n => set_weight (f i) n) (g_nodes (s_graph s))) (g_edges (s_graph s))).
Definition run_call (c : call) (s : aco F) : option (aco F) :=
  match c with
  | Walk rnd ant => build_path O rnd s ant | WalkNodes rnd ant => build_path_nodes O rnd s ant
  | WalkSubnodes rnd from to ant => build_path_subnodes O rnd from to s ant | WalkBest ant => build_best_path O s ant
  | Credit ant x => set_pheromone_to_index ant x s | Remember => update_best_trail O s | SetBest x => Some (set_pheromone_best_trail x s)
  | Taus => Some (update_taus O s)
  | Reward => update_pheromones O s | RewardNodes => update_pheromones_nodes O s | RewardSubnodes from to => update_pheromones_subnodes O from to s
  | RewardAll => update_pheromones_free O s | RewardBest => update_pheromones_best O s | RewardBestNodes => update_pheromones_best_nodes O s
  | Refresh d => recompute_pheromones O d s | RefreshNodes d => recompute_pheromones_nodes O d s
  | RefreshIf t d => fst <$> recompute_if_stagnant O t d s | RefreshNodesIf t d => fst <$> recompute_if_stagnant_nodes O t d s
  | Fitness => pso_function O s | FitnessNodes => pso_function_nodes s | Personal => best_personal O s | Global => best_global O s
  | GlobalNodes => best_global_nodes O s | Swarm_step w r1 r2 => update_pso O w r1 r2 s | Reset => reset_flags s | Move f => Some (move f s)
  end.
Fixpoint run (cs : list call) (s : aco F) : option (aco F) := match cs with [] => Some s | c :: cs => s ← run_call c s; run cs s end.
(** the states that a program can reach *)
Definition reached (k : setup F) (s : aco F) : Prop := exists junk rnd cs s0, init_aco O junk rnd k = Some s0 /\ run cs s0 = Some s.
End spec.
Arguments call : clear implicits.
