(** Specification for the normalization of scores *)
From Verif Require Import NumLib Mms_Model.
From Coq Require Import Reals.
Notation vec := (list R).
Open Scope nat_scope.

Definition layers (m : model) : list layer := fcls m ++ cls m ++ concat (rls m).
(** a layer with a score for each of its weights *)
Definition scored (l : layer) : Prop := unweighted l = false /\ ∃ s, scores l = Some s /\ length s = weights l.
Definition scores_of (l : layer) : vec := default [] (scores l).
Definition all_scores (m : model) : vec := concat (map scores_of (layers m)).
(** the layer [l'] is the layer [l] with each score x replaced by g x *)
Definition rescaled (g : R -> R) (l l' : layer) : Prop := weights l' = weights l /\ unweighted l' = unweighted l /\ scores l' = Some (map g (scores_of l)).
(** the same layers in the same places, related by [P] *)
Definition everywhere (P : layer -> layer -> Prop) (m m' : model) : Prop := Forall2 P (fcls m) (fcls m') /\ Forall2 P (cls m) (cls m') /\ Forall2 (Forall2 P) (rls m) (rls m').
(** [lo] and [hi] are the least and the greatest of the values *)
Definition extremes (l : vec) (lo hi : R) : Prop := lo ∈ l /\ hi ∈ l /\ ∀ x, x ∈ l -> (lo <= x <= hi)%R.
(** the map that takes [lo] to 0 and [hi] to 1 *)
Definition unit_map (lo hi x : R) : R := ((x - lo) / (hi - lo))%R.
