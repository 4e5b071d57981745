(** Vocabulary for the theorems on the evaluation of NEAT genomes: the network that a genome stands for.  Everything is said with the numbers of the
    nodes and connections ([has_gene], Neat_Spec.v); inputs are the nodes 1..input, the outputs come next. *)
From Coq Require Import Reals.
From Verif Require Import Base Neat_Model Neat_Spec.
Open Scope nat_scope.

Section spec.
Context (g : genome R).
Definition an_input (a : nat) : Prop := is_input (g_input g) a.
Definition an_output (a : nat) : Prop := is_output (g_input g) (g_output g) a.

(** from the node an enabled connection chain goes to an output *)
Inductive leads : nat -> Prop :=
| leads_out o : an_output o -> leads o
| leads_step num a b w : has_gene g num a b true w -> leads b -> leads a.

(** the enabled connections that enter the node b, each once: number, origin and weight *)
Definition incoming (b : nat) (l : list (nat * nat * R)) : Prop := NoDup l /\ forall num a w, (num, a, w) ∈ l <-> has_gene g num a b true w.

(** what a node sends along its connections: an input its value, another node the activation of its value *)
Definition sent (sig : R -> R) (val : nat -> R) (a : nat) (y : R) : Prop := (an_input a /\ y = val a) \/ (~ an_input a /\ y = sig (val a)).

(** [x] is the weighted sum of what the origins of the connections in [l] send *)
Inductive weighted (sig : R -> R) (val : nat -> R) : list (nat * nat * R) -> R -> Prop :=
| weighted_nil : weighted sig val [] 0
| weighted_cons num a w l y x : sent sig val a y -> weighted sig val l x -> weighted sig val ((num, a, w) :: l) (y * w + x).

(** The network equations: the inputs have the given values, and the value of every other node that leads to an output is the weighted sum of what
    its enabled incoming connections bring. *)
Definition solves (sig : R -> R) (inputs : list R) (val : nat -> R) : Prop :=
  (forall i, i < g_input g -> inputs !! i = Some (val (i + 1))) /\
  forall b, leads b -> ~ an_input b -> exists l, incoming b l /\ weighted sig val l (val b).

(** a node that is not an input has at most one enabled outgoing connection *)
Definition tree_shaped : Prop := forall num num' a b b' w w', ~ an_input a -> has_gene g num a b true w -> has_gene g num' a b' true w' -> num = num'.
(** a hidden node that leads to an output has an enabled incoming connection *)
Definition no_dead_start : Prop := forall b, leads b -> ~ an_input b -> ~ an_output b -> exists num a w, has_gene g num a b true w.
End spec.

(** the enabled connections of the genome: number, origin, end, weight *)
Definition enabled_are (g : genome R) (l : list (nat * nat * nat * R)) : Prop := forall num a b w, has_gene g num a b true w <-> (num, a, b, w) ∈ l.

(** the activation of the library (neat_utils.c:654-658 modified_sigmoid), over the reals *)
Definition msig (x : R) : R := (/ (1 + exp (- (49 / 10) * x)))%R.
