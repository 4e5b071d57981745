(** What a search tree must look like, independently of how a visit works. *)
From Verif Require Import Mcts_Model.
Open Scope nat_scope.

Section spec.
Context {F : Type}.
Implicit Types t : tree (F := F).
(** the output node of edge a of node n *)
Definition out t (n a : nat) : option nat := x ← t_nodes t !! n; e ← d_edges x !! a; e_out e.
Definition depth_of t (n : nat) : option nat := d_depth <$> t_nodes t !! n.
Definition width t (n : nat) : option nat := (fun x => length (d_edges x)) <$> t_nodes t !! n.
(** the prior probabilities of the edges of node n *)
Definition priors t (n : nat) : option (list F) := (fun x => e_prior <$> d_edges x) <$> t_nodes t !! n.
(** how often node n was visited; 0 if there is no such node *)
Definition count t (n : nat) : nat := default 0 (d_count <$> t_nodes t !! n).
Definition value t (n : nat) : option F := d_q <$> t_nodes t !! n.
(** the output nodes of node n *)
Definition outs t (n : nat) : list nat := match t_nodes t !! n with Some x => omap e_out (d_edges x) | None => [] end.
(** the visits of the children of node n *)
Definition children_count t (n : nat) : nat := sum_list (count t <$> outs t n).
(** how often action a was taken at the root *)
Definition taken t (a : nat) : nat := match out t 0 a with Some c => count t c | None => 0 end.
(** node m is n, or below it in the tree *)
Definition below t : nat -> nat -> Prop := rtc (fun n m => exists a, out t n a = Some m).

(** a tree of depth at most [depth] where every node has [actions] edges, which t->n_edges counts *)
Record is_tree (actions depth : nat) t : Prop := IsTree {
  it_root : depth_of t 0 = Some 0;
  it_width n w : width t n = Some w -> w = actions;
  it_depth n d : depth_of t n = Some d -> d <= depth;
  it_child n a c : out t n a = Some c -> n < c /\ exists d, depth_of t n = Some d /\ depth_of t c = Some (S d);
  it_parent c : 0 < c -> c < length (t_nodes t) -> exists n a, out t n a = Some c;
  it_unique n a n' a' c : out t n a = Some c -> out t n' a' = Some c -> n = n' /\ a = a';
  it_edges : t_nedges t = actions * length (t_nodes t) }.
(** every visit that goes through a node below the root, but the one that created it, goes on to one of its children *)
Definition balanced (depth : nat) t : Prop :=
  forall n d, 0 < n -> depth_of t n = Some d -> 1 <= count t n /\ (d < depth -> count t n = 1 + children_count t n).
End spec.
