(** Vocabulary for the theorems on saved and loaded NEAT genomes. *)
From Verif Require Import Base Neat_Model Neat_Spec Gsave_Model.
Open Scope nat_scope.

Section spec.
  Context {W : Type}.

  (** The two genomes are the same network: the same nodes in the same order, and the same
      connections, with the same numbers, weights and flags. *)
  Definition same_genome (g g' : genome W) : Prop :=
    g_input g' = g_input g /\ g_output g' = g_output g /\ node_numbers g' = node_numbers g /\
    forall num a b e w, has_gene g' num a b e w <-> has_gene g num a b e w.

  (** The lists of every node hold its connections in increasing order of their numbers. *)
  Definition in_order (g : genome W) : Prop :=
    forall i n, g_nodes g !! i = Some n ->
      exists ins outs, mapM (rd (g_conns g)) (n_in n) = Some ins /\ increasing (c_inn <$> ins) /\
        mapM (rd (g_conns g)) (n_out n) = Some outs /\ increasing (c_inn <$> outs).

  (** [conv] and [convw] undo themselves, as a reversal of bytes does, and as doing nothing does *)
  Definition undoes_itself {A} (conv : A -> A) : Prop := forall x, conv (conv x) = x.
End spec.
