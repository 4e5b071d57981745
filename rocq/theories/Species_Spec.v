(** Vocabulary for the theorems on the distance of NEAT genomes and on species. *)
From Coq Require Import Reals.
From Verif Require Import Base Neat_Model Neat_Spec Species_Model.
Open Scope nat_scope.

(** ** The distance of two genomes *)

(** the numbers of the connections of a genome *)
Definition numbers (g : genome R) : list nat := c_inn <$> g_conns g.
Definition last_number (g : genome R) : nat := foldr Nat.max 0 (numbers g).

(** the weight that connection [num] contributes: 0 when it is missing or disabled *)
Fixpoint expressed (cs : list (conn R)) (num : nat) : R :=
  match cs with
  | [] => 0%R
  | c :: cs => if decide (c_inn c = num) then if c_flag c then c_weight c else 0%R
               else expressed cs num
  end.

(** the connections of [g] that [h] lacks: beyond the last one of [h] (excess) or not (disjoint) *)
Definition excess (g h : genome R) : list nat :=
  filter (fun n => n ∉ numbers h /\ last_number h < n) (numbers g).
Definition disjoint (g h : genome R) : list nat :=
  filter (fun n => n ∉ numbers h /\ n <= last_number h) (numbers g).
Definition common (g h : genome R) : list nat := filter (fun n => n ∈ numbers h) (numbers g).

Definition total (l : list R) : R := foldr Rplus 0%R l.
Definition mean (l : list R) : R := if decide (l = []) then 0%R else (total l / INR (length l))%R.

(** the mean difference of the weights of the common connections *)
Definition weight_difference (g h : genome R) : R :=
  mean ((fun n => Rabs (expressed (g_conns g) n - expressed (g_conns h) n)) <$> common g h).

(** the divisor: the number of connections of the larger genome, 1 if that is small *)
Definition divisor (g h : genome R) : nat :=
  let n := Nat.max (length (numbers g)) (length (numbers h)) in
  if decide (n < 20 + g_input g * g_output g) then 1 else n.

(** The distance that is computed: only the connections of [g] that [h] lacks are counted. *)
Definition one_sided_distance (g h : genome R) : R :=
  ((INR (length (excess g h)) + INR (length (disjoint g h))) / INR (divisor g h)
   + 4 / 10 * weight_difference g h)%R.

(** The distance of the NEAT algorithm, with the same coefficients: the connections that either
    genome lacks are counted. *)
Definition neat_distance (g h : genome R) : R :=
  ((INR (length (excess g h)) + INR (length (excess h g))
    + INR (length (disjoint g h)) + INR (length (disjoint h g))) / INR (divisor g h)
   + 4 / 10 * weight_difference g h)%R.

(** the connections that the computed distance ignores *)
Definition ignored (g h : genome R) : list nat :=
  if decide (last_number g < last_number h) then disjoint g h else disjoint h g.

(** What compute_species_distance computes (theorem [distance_formula]). *)
Definition distance (g h : genome R) : R :=
  if decide (last_number g < last_number h) then one_sided_distance h g else one_sided_distance g h.

(** ** Species *)

(** two genomes with the same nodes and the same connections *)
Definition same_genome (g h : genome R) : Prop :=
  (node_numbers g ≡ₚ node_numbers h) /\
  forall num a b e w, has_gene g num a b e w <-> has_gene h num a b e w.

(** [y] is a copy of [x] *)
Definition twin (x y : individual) : Prop :=
  i_fitness x = i_fitness y /\ i_rip x = i_rip y /\ same_genome (i_genome x) (i_genome y).

Definition distance_to (s : specie) (x : individual) : R := distance (i_genome (s_rep s)) (i_genome x).

(** all the genomes of a list of species *)
Definition members (l : list specie) : list individual := mjoin (s_members <$> l).

(** [x] is nowhere near the representatives of the species before number [j] *)
Definition apart (threshold : R) (l : list specie) (j : nat) (x : individual) : Prop :=
  forall i s, i < j -> l !! i = Some s -> (threshold <= distance_to s x)%R.

(** Every genome is in the first species whose representative is nearer than the threshold, or it
    founded its species because there was none; representatives are apart. *)
Definition well_placed (threshold : R) (l : list specie) : Prop :=
  forall j s, l !! j = Some s ->
    apart threshold l j (s_rep s) /\
    forall x, x ∈ s_members s ->
      apart threshold l j x /\ ((distance_to s x < threshold)%R \/ twin (s_rep s) x).
