(** Model of the Monte-Carlo tree search: mcts.c.

    The numbers are those of any arithmetic [num] (exact reals, or floats with infinities and NaNs).  A node is named by its position in
    t->nodes, where it stays; the root is node 0.  What the networks and the random generator give to one visit is a [draw], arbitrary.
    Reads outside of the arrays and through NULL are [None].  Left out: the states and the hidden states of the nodes (they only feed the
    networks) and v_pow, which nothing reads. *)
From Coq Require Import Reals.
From Verif Require Export Base.
From Verif Require Import RealSum Sort_Model.
Open Scope nat_scope.

(** the arithmetic of C's doubles: n_flt is the conversion to float, n_int the conversion to int *)
Record num (F : Type) := Num {
  n_z : Z -> F; n_add : F -> F -> F; n_sub : F -> F -> F; n_mul : F -> F -> F; n_div : F -> F -> F; n_lt : F -> F -> bool; n_le : F -> F -> bool;
  n_log : F -> F; n_sqrt : F -> F; n_flt : F -> F; n_int : F -> option Z }.
Arguments Num {F}. Arguments n_z {F}. Arguments n_add {F}. Arguments n_sub {F}. Arguments n_mul {F}. Arguments n_div {F}. Arguments n_lt {F}.
Arguments n_le {F}. Arguments n_log {F}. Arguments n_sqrt {F}. Arguments n_flt {F}. Arguments n_int {F}.
(** exact reals; a quotient by 0 is some number *)
Definition truncate (x : R) : Z := (if decide (0 <= x)%R then Int_part x else - Int_part (- x))%Z.
Definition real_num : num R := {|
  n_z := IZR; n_add := Rplus; n_sub := Rminus; n_mul := Rmult; n_div := Rdiv; n_lt := fun x y => bool_decide (x < y)%R;
  n_le := fun x y => bool_decide (x <= y)%R; n_log := ln; n_sqrt := R_sqrt.sqrt; n_flt := fun x => x;
  n_int := fun x => if decide (-2147483649 < x < 2147483648)%R then Some (truncate x) else None |}.

Section mcts.
Context {F : Type} (O : num F).
Notation "a +' b" := (n_add O a b) (at level 50, left associativity). Notation "a -' b" := (n_sub O a b) (at level 50, left associativity).
Notation "a *' b" := (n_mul O a b) (at level 40, left associativity). Notation "a /' b" := (n_div O a b) (at level 40, left associativity).
Let nat_ (n : nat) : F := n_z O (Z.of_nat n).

(** llab.h:1093-1117 mcts_edge, mcts_node, mcts; t_returned is None when the field is not set yet *)
Record edge := Edge { e_prior : F; e_out : option nat }.
Record node := Node { d_count : nat; d_depth : nat; d_q : F; d_reward : F; d_v : F; d_prefix : F; d_edges : list edge }.
Record tree := Tree { t_nodes : list node; t_nedges : nat; t_returned : option nat; t_qmin : F; t_qmax : F; t_qdiff : F }.
(** the constants of the search: maximum_depth, lstm_window, gamma_reward, noise_epsilon, c_init, c_base *)
Record config := Config { k_depth : nat; k_window : nat; k_gamma : F; k_eps : F; k_cinit : F; k_cbase : F }.
(** one visit: the sample of dirichlet_sample, r2(), and for the new node the outputs of the policy network, the predicted prefix of rewards
    and the predicted value *)
Record draw := Draw { w_noise : list F; w_rnd : F; w_policy : list F; w_prefix : F; w_value : F }.

Definition fresh_edges (policy : list F) : list edge := (fun p => Edge p None) <$> policy.
(** mcts.c:120-165 init_mcts *)
Definition init_mcts (policy : list F) : tree :=
  Tree [Node 0 0 (n_z O 0) (n_z O 0) (n_z O 0) (n_z O 0) (fresh_edges policy)] (length policy) None (n_z O 1000000000) (n_z O (-1000000000)) (n_z O 1000000000).

(** the visited children of a node *)
Definition visited (t : tree) (x : node) : list node :=
  filter (fun y => 0 < d_count y) (omap (fun e => i ← e_out e; t_nodes t !! i) (d_edges x)).
(** mcts.c:180-188 get_sum_visited_children_q_normalized_mcts_node.  q_difference is compared with 0 as n_le both ways *)
Definition sum_q (t : tree) (x : node) : F :=
  foldl (fun s y => if n_le O (t_qdiff t) (n_z O 0) && n_le O (n_z O 0) (t_qdiff t) then s else s +' (d_q y -' t_qmin t) /' t_qdiff t) (n_z O 0) (visited t x).
(** mcts.c:190-198 get_visited_children_q_mcts_node *)
Definition n_visited (t : tree) (x : node) : F := nat_ (length (visited t x)).

(** mcts.c:224-256 the choice at the root; None if no action is chosen (n->edges[-1] is then read).
    p is noised; sort_double (utils.c:983-1110) sorts indices by the values of p converted to int *)
Fixpoint pick (p : list F) (idx : list nat) (random : F) : option nat :=
  match idx with
  | [] => None
  | i :: idx => x ← rd p i; if n_le O x random then Some i else pick p idx (n_flt O (random -' x))
  end.
Definition root_probs (k : config) (w : draw) (x : node) : list F :=
  zip_with (fun s e => s *' k_eps k +' (n_z O 1 -' k_eps k) *' e_prior e) (w_noise w) (d_edges x).
Definition root_choice (k : config) (w : draw) (x : node) : option nat :=
  let p := root_probs k w x in
  ints ← mapM (n_int O) p; idx ← sort_array 1 ints (seq 0 (length (d_edges x))); pick p idx (w_rnd w).
(** mcts.c:258-283 the choice elsewhere: normalized is false for edge 0 only *)
Definition bonus (k : config) (e : edge) (y : node) : F :=
  e_prior e *' (n_log O ((n_z O 1 +' nat_ (d_count y) +' k_cbase k) /' k_cbase k) +' k_cinit k) *' n_flt O (n_sqrt O (nat_ (d_count y)))
    /' (n_z O 1 +' nat_ (d_count y)).
Definition ucb (k : config) (t : tree) (qhat : F) (normalized : bool) (e : edge) : option F :=
  match e_out e with
  | None => Some qhat
  | Some i => y ← rd (t_nodes t) i;
    Some ((if normalized then (d_q y -' t_qmin t) /' (t_qmax t -' t_qmin t) else d_q y) +' bonus k e y)
  end.
Definition ucb_choice (k : config) (t : tree) (qhat : F) (x : node) : option nat :=
  match d_edges x with
  | [] => None
  | e0 :: es =>
    u ← ucb k t qhat false e0;
    s ← for_loop (length es) 0 (fun i s => e ← rd es i; u ← ucb k t qhat true e; Some (if n_lt O s.2 u then (S i, u) else s)) (0, u);
    Some s.1
  end.

(** if(q < t->q_min) t->q_min = q; if(q > t->q_max) t->q_max = q; *)
Definition bound (q : F) (t : tree) : tree :=
  Tree (t_nodes t) (t_nedges t) (t_returned t) (if n_lt O q (t_qmin t) then q else t_qmin t) (if n_lt O (t_qmax t) q then q else t_qmax t) (t_qdiff t).
Definition set_node (i : nat) (x : node) (t : tree) : tree :=
  Tree (<[i := x]> (t_nodes t)) (t_nedges t) (t_returned t) (t_qmin t) (t_qmax t) (t_qdiff t).
Definition set_returned (i : nat) (t : tree) : tree := Tree (t_nodes t) (t_nedges t) (Some i) (t_qmin t) (t_qmax t) (t_qdiff t).
(** t->nodes[t->n_nodes] = new_node; its edges are appended to t->edges *)
Definition add_node (x : node) (t : tree) : tree :=
  Tree (t_nodes t ++ [x]) (t_nedges t + length (d_edges x)) (t_returned t) (t_qmin t) (t_qmax t) (t_qdiff t).
Definition with_q (q : F) (x : node) : node := Node (d_count x) (d_depth x) q (d_reward x) (d_v x) (d_prefix x) (d_edges x).
Definition with_count (c : nat) (x : node) : node := Node c (d_depth x) (d_q x) (d_reward x) (d_v x) (d_prefix x) (d_edges x).
Definition with_edges (es : list edge) (x : node) : node := Node (d_count x) (d_depth x) (d_q x) (d_reward x) (d_v x) (d_prefix x) es.

(** mcts.c:201-219 at the maximum depth *)
Definition visit_leaf (t : tree) (n : nat) (x : node) : tree * F :=
  let q := n_flt O ((d_q x *' nat_ (d_count x) +' d_reward x +' d_v x) /' nat_ (d_count x + 1)) in
  (bound q (set_node n (with_count (S (d_count x)) (with_q q x)) (set_returned n t)), d_prefix x).
(** mcts.c:287-368 a new node as the output of edge index of node n; the policy network always has as many outputs *)
Definition expand (k : config) (w : draw) (t : tree) (n : nat) (x : node) (index : nat) (e : edge) (depth : nat) : option (tree * F) :=
  if decide (length (w_policy w) <> length (d_edges x)) then None else
  let reward := if decide (depth mod k_window k <> 0) then n_flt O (w_prefix w -' d_prefix x) else w_prefix w in
  let v := n_flt O (k_gamma k *' w_value w) in
  let q := n_flt O (reward +' v) in
  let new := length (t_nodes t) in
  let y := Node 1 (S depth) q reward v (w_prefix w) (fresh_edges (w_policy w)) in
  let t := bound q (add_node y t) in
  Some (set_returned new (set_node n (with_edges (<[index := Edge (e_prior e) (Some new)]> (d_edges x)) x) t), v).
(** mcts.c:373-398 after the visit of the child c, when another node was returned *)
Definition back_up (k : config) (t : tree) (n c r : nat) (vn : F) : option (tree * F) :=
  x ← rd (t_nodes t) n; y ← rd (t_nodes t) c; z ← rd (t_nodes t) r;
  let reward := d_prefix z in
  let ret_ind := d_depth z mod k_window k in let child_ind := d_depth y mod k_window k in
  let far := bool_decide (child_ind = 0) || bool_decide (ret_ind <= child_ind) || bool_decide (k_window k < d_depth z - d_depth y) in
  let vn := if far then vn else vn *' k_gamma k in
  let q := if far then (nat_ (d_count y) *' d_q y +' (reward +' vn)) /' nat_ (d_count y + 1)
           else (nat_ (d_count y) *' d_q x +' (reward -' d_prefix y +' vn)) /' nat_ (d_count y + 1) in
  let t := set_node n (with_q (n_flt O q) x) t in
  Some (bound (d_q y) (set_node c (with_count (S (d_count y)) y) t), vn).
(** mcts.c:201-402 visit_node.  The recursion ends at maximum_depth *)
Fixpoint visit_node (fuel : nat) (k : config) (w : draw) (t : tree) (n : nat) (qparent : F) (depth : nat) : option (tree * F) :=
  match fuel with
  | 0 => None
  | S fuel =>
    x ← rd (t_nodes t) n;
    if decide (k_depth k <= depth) then Some (visit_leaf t n x) else
    let qhat := (sum_q t x +' qparent) /' n_visited t x in
    index ← (if decide (depth = 0) then root_choice k w x else ucb_choice k t qhat x);
    e ← rd (d_edges x) index;
    match e_out e with
    | None => expand k w t n x index e depth
    | Some c =>
      '(t, vn) ← visit_node fuel k w t c qhat (S depth);
      if decide (t_returned t = Some c) then Some (t, vn) else r ← t_returned t; back_up k t n c r vn
    end
  end.
(** one call from the root *)
Definition visit (k : config) (q0 : F) (t : tree) (w : draw) : option tree := fst <$> visit_node (S (k_depth k)) k w t 0 q0 0.
Fixpoint visits (k : config) (q0 : F) (t : tree) (ws : list draw) : option tree :=
  match ws with [] => Some t | w :: ws => t ← visit k q0 t w; visits k q0 t ws end.
End mcts.

(** mcts.c:405-424 get_mcts_probability over the exact reals; the sum is taken after all the counts are replaced, which is the same as long as
    no two edges have the same output node.  tempered n is pow(n,1.0/temperature) stored in a uint64_t *)
Definition tempered (temperature : R) (n : nat) : option nat :=
  if decide (temperature = 0%R) then if decide (n = 1) then Some 1 else None else
  let x := if decide (n = 0) then 0%R else Rpower (INR n) (/ temperature) in
  if decide (x < IZR (2 ^ 64))%R then Some (Z.to_nat (Int_part x)) else None.
Definition child_of {F} (t : tree (F := F)) (e : edge (F := F)) : option (node (F := F)) := i ← e_out e; t_nodes t !! i.
Definition temper_children (temperature : R) (t : tree (F := R)) (root : node (F := R)) : option (tree (F := R)) :=
  for_loop (length (d_edges root)) 0 (fun i t =>
    e ← rd (d_edges root) i;
    match e_out e with
    | None => Some t
    | Some c => y ← rd (t_nodes t) c; m ← tempered temperature (d_count y); Some (set_node c (with_count m y) t)
    end) t.
Definition get_mcts_probability (t : tree (F := R)) (temperature : R) : option (tree (F := R) * list R) :=
  root ← rd (t_nodes t) 0;
  t ← temper_children temperature t root;
  let counts : list (option nat) := (fun e => d_count <$> child_of t e) <$> d_edges root in
  let sum := foldl (fun s c => (s + INR c)%R) 0%R (omap (fun c => c) counts) in
  Some (t, (fun c => match c with Some c => (INR c / sum)%R | None => 0%R end) <$> counts).
(** mcts.c:426-436 get_mcts_v *)
Definition get_mcts_v (t : tree (F := R)) (p : list R) : option R :=
  root ← rd (t_nodes t) 0;
  Some (foldl (fun s q => (s + q)%R) 0%R
    (zip_with (fun p e => match child_of t e with Some y => (p * (d_q y - t_qmin t) / (t_qmax t - t_qmin t))%R | None => 0%R end) p (d_edges root))).
