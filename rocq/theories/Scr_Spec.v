(** What the operations on edge-popup scores are said to do. *)
From Coq Require Import Reals.
From Verif Require Import Base Flat_Model Flat_Spec Scr_Model.
Open Scope nat_scope.

Section spec.
  Context {F : Type}.

  (** score number [j] of a layer *)
  Definition score (h : mem F) (l : layer) (j : nat) : option F := l ← h (addr l) (Val Scores); l !! j.

  (** a layer with [n] scores, and one without scores *)
  Definition with_scores (l : layer) (n : nat) : Prop := layout ScoresOf l = [(Some (Val Scores), n)].
  Definition without_scores (l : layer) : Prop := layout ScoresOf l = [].

  (** two models with the same layers, as far as scores are concerned *)
  Definition same_shape (a b : model) : Prop :=
    (layout ScoresOf ∘ Dense <$> m_fcls a) = (layout ScoresOf ∘ Dense <$> m_fcls b) /\
    (layout ScoresOf ∘ Conv <$> m_cls a) = (layout ScoresOf ∘ Conv <$> m_cls b) /\
    ((fun r => layout ScoresOf ∘ Conv <$> r_cls r) <$> m_rls a) =
    ((fun r => layout ScoresOf ∘ Conv <$> r_cls r) <$> m_rls b).

  (** the scores of a model are allocated *)
  Definition has_scores (h : mem F) (m : model) : Prop := allocated h (entries ScoresOf (layers_model m)).

  (** the layers of a model are different objects *)
  Definition own_layers (m : model) : Prop := NoDup (addr <$> layers_model m).

  (** [a] shares with [o] at most the layers at the same place: they are the same model, or have
      nothing in common *)
  Definition in_step (a o : model) : Prop :=
    forall i j x y, layers_model a !! i = Some x -> layers_model o !! j = Some y ->
      addr x = addr y -> i = j.
  Definition apart (a o : model) : Prop :=
    forall x y, x ∈ layers_model a -> y ∈ layers_model o -> addr x <> addr y.

  (** every score of [o] is [g] of the three scores at its place, and nothing else changes *)
  Definition combined (g : F -> F -> F -> F) (a b o : model) (h h' : mem F) : Prop :=
    (forall i x y z n j, layers_model a !! i = Some x -> layers_model b !! i = Some y ->
       layers_model o !! i = Some z -> with_scores z n -> j < n ->
       exists p q r, score h x j = Some p /\ score h y j = Some q /\ score h z j = Some r /\
         score h' z j = Some (g p q r)) /\
    only_changes (entries ScoresOf (layers_model o)) h h'.

  (** every score of [m] is [g] of what it was, and nothing else changes *)
  Definition mapped (g : F -> F) (m : model) (h h' : mem F) : Prop :=
    (forall z n j, z ∈ layers_model m -> with_scores z n -> j < n ->
       exists r, score h z j = Some r /\ score h' z j = Some (g r)) /\
    only_changes (entries ScoresOf (layers_model m)) h h'.

  (** a layer that was never given scores has none *)
  Definition no_other_scores (h : mem F) (m : model) : Prop :=
    forall z, z ∈ layers_model m -> without_scores z -> h (addr z) (Val Scores) = None.
End spec.

(** the sum of a list of reals *)
Definition total_of (l : list R) : R := foldr Rplus 0%R l.

(** floats with NaN ([None]) *)
Definition lt_nan (a b : option R) : bool :=
  match a, b with Some a, Some b => if Rlt_dec a b then true else false | _, _ => false end.
Definition is_real_nan (a : option R) : bool := match a with Some _ => true | None => false end.

(** the indices of a layer with [n] scores list every place once, by increasing score *)
Definition ranks {F} (lt : F -> F -> bool) (h : mem F) (z : layer) (n : nat) (idx : list nat) : Prop :=
  idx ≡ₚ seq 0 n /\
  forall i i' j j' s s', i <= i' -> idx !! i = Some j -> idx !! i' = Some j' ->
    score h z j = Some s -> score h z j' = Some s' -> lt s' s = false.

(** weight number [j] of a dense layer *)
Definition weight {F} (h : mem F) (f : fcl) (j : nat) : option F :=
  l ← h (f_at f) (Val Weights); l !! j.
