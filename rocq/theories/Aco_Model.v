(** Model of the ant-colony search over networks: the graph (aco_init.c, aco_building.c), the walks of the ants and the networks they build
    (aco_iterate.c, aco_process.c).

    The numbers are those of any arithmetic [num].  A node (an edge) is named by its position in the order of allocation; a pointer to it is
    this number.  What undefined behaviour leaves open is [None]: an access out of an array, a NULL pointer, an endless loop, and exit(1).
    Sizes and counters are natural numbers: ints that overflow are left out.  Left out too: the params of size other than 1 and the biases of a
    node (nothing that init_aco calls builds any), and f->v, levy_*, depths (only checked by init_aco), longest_trail, number_of_iterations. *)
From Coq Require Import Reals.
From Verif Require Export Base Mcts_Model.
From Verif Require Import Sort_Model.
Open Scope nat_scope.

(** llab.h:77-84: the activation flags *)
Notation aNone := 0. Notation aSigmoid := 1. Notation aRelu := 2. Notation aTanh := 4. Notation aLeaky := 5. Notation aElu := 6.
(** llab.h:247-253: the operations on an edge *)
Notation opCopy := 1. Notation opExecute := 4. Notation opTake := 6. Notation opIndexCopy := 7.

Section aco.
Context {F : Type} (O : num F).
Let zero : F := n_z O 0.

(** llab.h:946-959, 974-981: what a node holds.  [Empty] is the root, all of whose pointers are NULL.
    [Weight d1 d2 d3 x]: params with dimension1, dimension2, dimension3 and single_p *)
Inductive body := Empty | Weight (d1 d2 d3 : nat) (x : F) | Activation (flag : nat) | Fcl (input output : nat).
(** llab.h:961-982 aco_node; o_best is best_weights->single_p, o_gparams the node whose best_weights best_global_params points to *)
Record node := Node { o_body : body; o_inputs : list nat; o_outputs : list nat; o_flag : bool; o_pher : F;
  o_input : F; o_personal : F; o_global : F; o_v : F; o_best : F; o_gparams : option nat }.
(** llab.h:984-990 aco_edge *)
Record edge := Edge { g_in : nat; g_out : nat; g_op : nat; g_pher : F; g_flag : bool }.
Record graph := Graph { g_nodes : list node; g_edges : list edge }.

(** aco_init.c:92-144 init_aco_node: best_weights starts at the weights *)
Definition new_node (b : body) : node :=
  Node b [] [] false zero zero zero zero zero (match b with Weight _ _ _ x => x | _ => zero end) None.
Definition init_node (b : body) (g : graph) : graph * nat := (Graph (g_nodes g ++ [new_node b]) (g_edges g), length (g_nodes g)).
(** aco_init.c:80-88 init_aco_edge *)
Definition init_edge (a b op : nat) (g : graph) : graph * nat := (Graph (g_nodes g) (g_edges g ++ [Edge a b op zero false]), length (g_edges g)).
(** aco_init.c:204-229 add_aco_edge *)
Definition add_edge (n e : nat) (input_edge : bool) (g : graph) : option graph :=
  x ← rd (g_nodes g) n; y ← rd (g_edges g) e;
  if input_edge then
    es ← wr (g_edges g) e (Edge (g_in y) n (g_op y) (g_pher y) (g_flag y));
    ns ← wr (g_nodes g) n (Node (o_body x) (o_inputs x ++ [e]) (o_outputs x) (o_flag x) (o_pher x) (o_input x) (o_personal x) (o_global x) (o_v x) (o_best x) (o_gparams x));
    Some (Graph ns es)
  else
    es ← wr (g_edges g) e (Edge n (g_out y) (g_op y) (g_pher y) (g_flag y));
    ns ← wr (g_nodes g) n (Node (o_body x) (o_inputs x) (o_outputs x ++ [e]) (o_flag x) (o_pher x) (o_input x) (o_personal x) (o_global x) (o_v x) (o_best x) (o_gparams x));
    Some (Graph ns es).
(** the three calls that aco_building.c makes for every edge (74-76, 117-119, 265-267, 320-322) *)
Definition connect (a b op : nat) (g : graph) : option graph :=
  let (g, e) := init_edge a b op g in g ← add_edge a e false g; add_edge b e true g.

(** aco_building.c:247-270 aco_build_layer_param_nodes_complete2.  [rnd id] is what signed_kaiming_constant returns for the node id.
    width = 0 returns NULL, from which get_nodes_to_attach reads *)
Definition build_weights (rnd : nat -> F) (input output width : nat) (g : graph) : option (graph * list nat) :=
  if decide (width = 0) then None else
  let count := width * input * output in
  st ← for_loop count 0 (fun i (st : graph * list nat) =>
         let (g, n) := st in
         let w := if decide (i mod width = 0) then zero else rnd (length (g_nodes g)) in
         let (g, id) := init_node (Weight input output (i / width) w) g in Some (g, n ++ [id])) (g, []);
  let (g, n) := st : graph * list nat in
  g ← for_loop (width * (input * output - 1)) 0 (fun i g =>
         for_loop width (i + (width - i mod width)) (fun j g => a ← rd n i; b ← rd n j; connect a b opIndexCopy g) g) g;
  Some (g, n).
(** aco_building.c:111-122 aco_attach_fcl_to_params, called with &n[off] *)
Definition attach_fcl (n : list nat) (off size input output : nat) (g : graph) : option (graph * nat) :=
  let (g, f) := init_node (Fcl input output) g in
  g ← for_loop size 0 (fun i g => a ← rd n (off + i); connect a f opExecute g) g; Some (g, f).
(** aco_building.c:317-324 aco_add_output_nodes_to_node *)
Definition add_outputs (n : nat) (ns : list nat) (size op : nat) (g : graph) : option graph :=
  for_loop size 0 (fun i g => b ← rd ns i; connect n b op g) g.
(** aco_building.c:31-56 aco_create_activations_node *)
Definition create_activations (g : graph) : graph * list nat :=
  let (g, a1) := init_node (Activation aNone) g in let (g, a2) := init_node (Activation aSigmoid) g in
  let (g, a3) := init_node (Activation aRelu) g in let (g, a5) := init_node (Activation aTanh) g in
  let (g, a6) := init_node (Activation aLeaky) g in let (g, a7) := init_node (Activation aElu) g in
  (g, [a1; a2; a3; a7; a5; a6]).
(** aco_building.c:288-307 get_nodes_to_attach; act is None for ALL_ACTIVATIONS.  71-95 aco_attach_activations_to_fcl is six connections *)
Definition nodes_to_attach (rnd : nat -> F) (input output width : nat) (act : option nat) (g : graph) : option (graph * list nat) :=
  st ← build_weights rnd input output width g;
  let (g, n) := st : graph * list nat in
  st ← attach_fcl n (width * (input * output - 1)) width input output g;
  let (g, f) := st : graph * nat in
  match act with
  | None => let (g, a) := create_activations g in g ← add_outputs f a 6 opExecute g; Some (g, n)
  | Some flag => let (g, a) := init_node (Activation flag) g in g ← add_outputs f [a] 1 opExecute g; Some (g, n)
  end.

(** aco_init.c:232-241 node_state(n) == ACO_IS_FCL.  For the root no return statement is reached: the result is [junk], arbitrary *)
Definition is_fcl (junk : bool) (b : body) : bool := match b with Fcl _ _ => true | Empty => junk | _ => false end.
(** n->outputs[i]->output *)
Definition child (g : graph) (n i : nat) : option nat := x ← rd (g_nodes g) n; e ← rd (o_outputs x) i; y ← rd (g_edges g) e; Some (g_out y).
(** aco_building.c:367: the loop that looks for the last fcl node *)
Fixpoint last_fcl (junk : bool) (fuel : nat) (g : graph) (n : nat) : option nat :=
  match fuel with
  | 0 => None
  | S fuel =>
    x ← rd (g_nodes g) n;
    stop ← (if is_fcl junk (o_body x) then c ← child g n 0; y ← rd (g_nodes g) c; Some (bool_decide (o_outputs y = [])) else Some false);
    if stop : bool then Some n else c ← child g n 0; last_fcl junk fuel g c
  end.
(** aco_building.c:356-373 attach_params_to_root, the flags being 0 *)
Definition attach_to_root (junk : bool) (root : nat) (ns : list nat) (size : nat) (g : graph) : option graph :=
  x ← rd (g_nodes g) root;
  if decide (o_outputs x = []) then add_outputs root ns size opCopy g
  else
    n ← last_fcl junk (S (length (g_nodes g))) g root; y ← rd (g_nodes g) n;
    for_loop (length (o_outputs y)) 0 (fun i g => c ← child g n i; add_outputs c ns size opCopy g) g.
(** aco_building.c:389-393 attach_layer *)
Definition attach_layer (junk : bool) (rnd : nat -> F) (root input output width : nat) (act : option nat) (g : graph) : option (graph * list nat) :=
  st ← nodes_to_attach rnd input output width act g;
  let (g, n) := st : graph * list nat in g ← attach_to_root junk root n width g; Some (g, n).

(** aco_iterate.c:667-686 get_all_nodes_and_edges: nodes and edges are what is pushed *)
Definition set_flag (v : bool) (x : node) : node :=
  Node (o_body x) (o_inputs x) (o_outputs x) v (o_pher x) (o_input x) (o_personal x) (o_global x) (o_v x) (o_best x) (o_gparams x).
Fixpoint visit (fuel : nat) (x : nat) (st : graph * list nat * list nat) : option (graph * list nat * list nat) :=
  match fuel with
  | 0 => None
  | S fuel =>
    let '(g, nodes, edges) := st in
    n ← rd (g_nodes g) x;
    if o_flag n then Some st else
    ns ← wr (g_nodes g) x (set_flag true n);
    for_loop (length (o_outputs n)) 0 (fun i (st : graph * list nat * list nat) =>
      let '(g, nodes, edges) := st in
      e ← rd (o_outputs n) i; y ← rd (g_edges g) e; visit fuel (g_out y) (g, nodes, edges ++ [e])) (Graph ns (g_edges g), nodes ++ [x], edges)
  end.
(** aco_iterate.c:688-697 compute_all_nodes_edges: the flags of what was found are cleared *)
Definition set_eflag (v : bool) (e : edge) : edge := Edge (g_in e) (g_out e) (g_op e) (g_pher e) v.
Definition on_node (f : node -> node) (i : nat) (g : graph) : option graph := x ← rd (g_nodes g) i; ns ← wr (g_nodes g) i (f x); Some (Graph ns (g_edges g)).
Definition on_edge (f : edge -> edge) (i : nat) (g : graph) : option graph := x ← rd (g_edges g) i; es ← wr (g_edges g) i (f x); Some (Graph (g_nodes g) es).
Fixpoint each {A} (f : A -> graph -> option graph) (l : list A) (g : graph) : option graph :=
  match l with [] => Some g | x :: l => g ← f x g; each f l g end.
Definition collect (root : nat) (g : graph) : option (graph * list nat * list nat) :=
  st ← visit (S (length (g_nodes g))) root (g, [], []);
  let '(g, nodes, edges) := st : graph * list nat * list nat in
  g ← each (on_node (set_flag false)) nodes g; g ← each (on_edge (set_eflag false)) edges g; Some (g, nodes, edges).

(** llab.h:1009-1061 aco_struct; nodes_layers is s_layers; the root is node 0 *)
Record aco := Aco { s_graph : graph; s_nodes : list nat; s_edges : list nat; s_layers : list (list nat); s_sizes : list nat; s_widths : list nat;
  s_depths : list nat; s_p : F; s_pdec : F; s_max : F; s_min : F; s_average : F; s_iter : nat; s_every : nat; s_best : list nat; s_best_pher : F;
  s_trails : list (list nat); s_phers : list F }.
(** the arguments of init_aco; k_acts: None is ALL_ACTIVATIONS *)
Record setup := Setup { k_sizes : list nat; k_widths : list nat; k_depths : list nat; k_acts : list (option nat); k_ants : nat; k_every : nat;
  k_p : F; k_tau : F; k_pdec : F }.

Definition set_pher (v : F) (x : node) : node :=
  Node (o_body x) (o_inputs x) (o_outputs x) (o_flag x) v (o_input x) (o_personal x) (o_global x) (o_v x) (o_best x) (o_gparams x).
Definition set_epher (v : F) (e : edge) : edge := Edge (g_in e) (g_out e) (g_op e) v (g_flag e).
(** aco_process.c:53-158 init_aco; n_layers is the length of sizes; widths and depths are read up to n_layers, activations up to
    n_layers-1.  A p that is NaN passes the check *)
Definition init_aco (junk : bool) (rnd : nat -> F) (k : setup) : option aco :=
  let layers := length (k_sizes k) in
  if decide (layers < 2) then None else
  if decide (length (k_widths k) < layers) then None else if decide (length (k_depths k) < layers) then None else
  if decide (Forall (fun d => 3 <= d) (take layers (k_depths k))) then
  if n_lt O (k_p k) zero || n_lt O (n_z O 1) (k_p k) then None else
  let (g, root) := init_node Empty (Graph [] []) in
  st ← for_loop (layers - 1) 0 (fun i (st : graph * list (list nat)) =>
         let (g, ls) := st in
         input ← rd (k_sizes k) i; output ← rd (k_sizes k) (i + 1); width ← rd (k_widths k) i; act ← rd (k_acts k) i;
         st ← attach_layer junk rnd root input output width act g;
         let (g, n) := st : graph * list nat in Some (g, ls ++ [n])) (g, []);
  let (g, ls) := st : graph * list (list nat) in
  st ← collect root g;
  let '(g, nodes, edges) := st : graph * list nat * list nat in
  g ← each (on_edge (set_epher (k_tau k))) edges g;
  g ← each (on_node (set_pher (k_tau k))) nodes g;
  Some (Aco g nodes edges ls (k_sizes k) (take layers (k_widths k)) (take layers (k_depths k)) (k_p k) (k_pdec k) (k_tau k) zero
    (n_z O (Z.of_nat (length edges / length nodes))) 0 (k_every k) [] zero (replicate (k_ants k) []) (replicate (k_ants k) zero))
  else None.

(** math_functions.c:932-939 compute_prob_average_double (the sum starts at 0), utils.c:1100 sort, and aco_iterate.c:390-408:
    the choice of an edge; prob and r are floats *)
Definition probabilities (phs : list F) : list F := let sum := foldl (n_add O) zero phs in (fun x => n_flt O (n_div O x sum)) <$> phs.
Fixpoint roulette (prob : list F) (indices : list nat) (r : F) : option (option nat) :=
  match indices with
  | [] => Some None
  | i :: indices => x ← rd prob i; if n_le O r x then Some (Some i) else roulette prob indices (n_flt O (n_sub O r x))
  end.
Definition choose (phs : list F) (r : F) : option nat :=
  let prob := probabilities phs in
  ints ← mapM (n_int O) prob;
  indices ← sort_array 1 ints (seq 0 (length phs));
  found ← roulette prob indices r;
  match found with Some i => Some i | None => rd indices (length phs - 1) end.
(** aco_iterate.c:467-474, 589-597: the first of the largest *)
Definition choose_best (phs : list F) : option nat :=
  match phs with [] => None | x :: _ => Some (foldl (fun st ix => if n_lt O st.2 ix.2 then ix else st) (0, x) (imap pair phs)).1 end.

(** the pheromones that a step reads: of the edges (386-389), or of the nodes at their ends (423-426) *)
Definition edge_phers (g : graph) (n : node) : option (list F) := mapM (fun e => y ← rd (g_edges g) e; Some (g_pher y)) (o_outputs n).
Definition node_phers (g : graph) (n : node) : option (list F) :=
  mapM (fun e => y ← rd (g_edges g) e; x ← rd (g_nodes g) (g_out y); Some (o_pher x)) (o_outputs n).
(** aco_iterate.c:377-412 aco_tracker_next_weithout_setting_flags, 414-457 ..._according_to_nodes, 459-480 ..._according_to_best,
    583-600 aco_tracker_best_next; one rule per function.  The result is the index, -1 being [Some None] *)
Inductive rule := ByEdges (r : F) | ByNodes (r : F) | BestNode | BestEdge.
Definition next_index (g : graph) (x : nat) (ru : rule) : option (option nat) :=
  n ← rd (g_nodes g) x;
  if decide (o_outputs n = []) then Some None else
  i ← match ru with
      | ByEdges r => phs ← edge_phers g n; choose phs r
      | ByNodes r => phs ← node_phers g n; choose phs r
      | BestNode => phs ← node_phers g n; choose_best phs
      | BestEdge => phs ← edge_phers g n; choose_best phs
      end;
  Some (Some i).
(** the loop of aco_process.c:506-522 (524-540, 542-563, 565-584): the indices from node x on; [rules size] is what is called at a step *)
Fixpoint walk (fuel : nat) (g : graph) (rules : nat -> rule) (size x : nat) : option (list nat) :=
  match fuel with
  | 0 => None
  | S fuel =>
    i ← next_index g x (rules size);
    match i with None => Some [] | Some i => c ← child g x i; l ← walk fuel g rules (S size) c; Some (i :: l) end
  end.
Definition with_trails (s : aco) (t : list (list nat)) : aco :=
  Aco (s_graph s) (s_nodes s) (s_edges s) (s_layers s) (s_sizes s) (s_widths s) (s_depths s) (s_p s) (s_pdec s) (s_max s) (s_min s) (s_average s)
    (s_iter s) (s_every s) (s_best s) (s_best_pher s) t (s_phers s).
Definition build_path_by (rules : nat -> rule) (s : aco) (index : nat) : option aco :=
  l ← walk (S (length (g_nodes (s_graph s)))) (s_graph s) rules 0 0; t ← wr (s_trails s) index l; Some (with_trails s t).
(** aco_process.c:506-522 build_path_from_ant_index; [rnd k] is what r2() returns at step k *)
Definition build_path (rnd : nat -> F) : aco -> nat -> option aco := build_path_by (fun k => ByEdges (rnd k)).
(** aco_process.c:524-540 build_path_from_ant_index_according_to_nodes *)
Definition build_path_nodes (rnd : nat -> F) : aco -> nat -> option aco := build_path_by (fun k => ByNodes (rnd k)).
(** aco_process.c:542-563 build_path_from_ant_index_according_to_subnodes; from = (int)(number_of_nodes*init_percentage), to likewise *)
Definition build_path_subnodes (rnd : nat -> F) (from to : nat) : aco -> nat -> option aco :=
  build_path_by (fun k => if decide (from <= k < to) then ByNodes (rnd k) else BestNode).
(** aco_process.c:565-584 build_best_path_from_ant_index_according_to_subnodes *)
Definition build_best_path : aco -> nat -> option aco := build_path_by (fun _ => BestNode).

(** a layer of the network that is built: input, output, weights, biases, activation flag *)
Record layer := Layer { l_in : nat; l_out : nat; l_weights : list F; l_biases : list F; l_act : nat }.
(** t->weights and t->biases (None for NULL), t->fcls *)
Record tracker := Tracker { t_arrays : option (list F * list F); t_fcls : list layer }.
(** aco_iterate.c:184-235 aco_tracker_build_model_complete2 (opIndexCopy) and 132-183 aco_tracker_build_model_complete (opTake): what the
    tracker does on its arrival at a node through an edge with operation op.  A fcl node without weights (NULL) is [None] *)
Definition build_step (take_op : nat) (b : body) (op : nat) (t : tracker) : option tracker :=
  match b with
  | Weight d1 d2 d3 x =>
    if decide (op = opCopy) then
      ws ← wr (replicate (d1 * d2) zero) d3 x; Some (Tracker (Some (ws, replicate d2 zero)) (t_fcls t))
    else if decide (op = take_op) then
      a ← t_arrays t; ws ← wr a.1 d3 x; Some (Tracker (Some (ws, a.2)) (t_fcls t))
    else Some t
  | Activation flag =>
    if decide (op = opExecute) then
      f ← list.last (t_fcls t); fs ← wr (t_fcls t) (length (t_fcls t) - 1) (Layer (l_in f) (l_out f) (l_weights f) (l_biases f) flag);
      Some (Tracker (t_arrays t) fs)
    else Some t
  | Fcl input output =>
    if decide (op = opExecute) then a ← t_arrays t; Some (Tracker None (t_fcls t ++ [Layer input output a.1 a.2 aSigmoid])) else Some t
  | Empty => None
  end.
(** the loop of aco_process.c:457-468 from node x on; aco_iterate.c:483-496 aco_tracker_next_by_index.  At a node without outputs the program
    repeats the last step, which for an activation changes nothing: here it is skipped *)
Fixpoint follow (take_op : nat) (g : graph) (x : nat) (trail : list nat) (t : tracker) : option tracker :=
  match trail with
  | [] => Some t
  | i :: trail =>
    n ← rd (g_nodes g) x;
    if decide (o_outputs n = []) then follow take_op g x trail t else
    e ← rd (o_outputs n) i; y ← rd (g_edges g) e; m ← rd (g_nodes g) (g_out y);
    t ← build_step take_op (o_body m) (g_op y) t; follow take_op g (g_out y) trail t
  end.
(** aco_process.c:457-468 get_model_according_to_path; network() receives t->fcls *)
Definition get_model (s : aco) (index : nat) : option (list layer) :=
  trail ← rd (s_trails s) index; t ← follow opIndexCopy (s_graph s) 0 trail (Tracker None []); Some (t_fcls t).
(** aco_process.c:489-504 get_best_model *)
Definition get_best_model (s : aco) : option (list layer) :=
  l ← walk (S (length (g_nodes (s_graph s)))) (s_graph s) (fun _ => BestEdge) 0 0;
  t ← follow opTake (s_graph s) 0 l (Tracker None []); Some (t_fcls t).
End aco.
Arguments body : clear implicits. Arguments node : clear implicits. Arguments edge : clear implicits. Arguments graph : clear implicits.
Arguments aco : clear implicits. Arguments setup : clear implicits. Arguments rule : clear implicits. Arguments layer : clear implicits.
Arguments tracker : clear implicits. Arguments Empty {F}. Arguments Activation {F}. Arguments Fcl {F}.
Arguments Graph {F}. Arguments BestNode {F}. Arguments BestEdge {F}. Arguments ByEdges {F}. Arguments ByNodes {F}. Arguments Tracker {F}. Arguments Layer {F}.
