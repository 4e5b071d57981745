(** Vocabulary for the theorems on NEAT evolutions: the parameters that init accepts, the possible
    random numbers, and the histories of an evolution. *)
From Coq Require Import Reals.
From Verif Require Import Base Shuffle_Spec Neat_Model Neat_Spec Species_Model Species_Spec Gen_Model.
Open Scope nat_scope.

(** the parameters that the checks at the start of init let pass (neat.c:7-99) *)
Record valid (c : settings) (input output initial : nat) : Prop := {
  v_input : 1 <= input;
  v_output : 1 <= output;
  v_initial : 1 <= initial <= max_pop c;
  v_children : 1 <= children c;
  v_survivors : (0 < survivors c <= 1)%R;
  v_limiting : (0 < limiting_threshold c < limiting c)%Z }.

Definition possible_child (rmax : Z) (k : child_luck) : Prop :=
  rand_ok rmax (cl_act k) /\ rand_ok rmax (cl_add1 k) /\ rand_ok rmax (cl_add2 k) /\
  rand_ok rmax (cl_rem k) /\ rand_ok rmax (cl_srand k).
Definition possible_gen (k : gen_luck) : Prop :=
  rand_ok (lk_rmax k) (lk_place k) /\ rand_ok (lk_rmax k) (lk_pairs k) /\
  forall n, possible_child (lk_rmax k) (lk_child k n).
Definition possible_init (k : init_luck) : Prop :=
  forall i j, rand_ok (il_rmax k) (il_add1 k i j) /\ rand_ok (il_rmax k) (il_add2 k i j).

(** The program that uses the library gives a fitness to every genome of the population. *)
Definition evaluate (f : nat -> R) (st : neat) : neat :=
  mkNeat (n_globals st) (imap (fun i x => set_fitness x (f i)) (n_gg st)) (n_species st) (n_best st).

(** The generations of an evolution: each time the genomes are evaluated, then
    neat_generation_run makes the next population. *)
Fixpoint generations (c : settings) (st : neat) (runs : list ((nat -> R) * gen_luck)) : option neat :=
  match runs with
  | [] => Some st
  | (f, k) :: runs => st' ← neat_generation_run c k false (evaluate f st); generations c st' runs
  end.

Definition evolution (c : settings) (input output initial : nat) (start : init_luck)
    (runs : list ((nat -> R) * gen_luck)) : option neat :=
  st ← init c start input output initial; generations c st runs.

(** the states of all the evolutions *)
Definition evolved (c : settings) (input output initial : nat) (st : neat) : Prop :=
  exists start runs, possible_init start /\ Forall (fun r => possible_gen (snd r)) runs /\
    evolution c input output initial start runs = Some st.

(** [x] is one of the fittest of [l] *)
Definition is_fittest (l : list individual) (x : individual) : Prop :=
  x ∈ l /\ forall y, y ∈ l -> (i_fitness y <= i_fitness x)%R.
