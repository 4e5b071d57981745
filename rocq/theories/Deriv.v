(** Helper facts about derivatives.  Statements use the standard library's [derivable_pt_lim];
    Coquelicot is used only to prove them. *)
From Coq Require Export Reals Lra.
From Coquelicot Require Import Coquelicot.
Open Scope R_scope.

Lemma dlim_ext f g x l : (forall z, f z = g z) -> derivable_pt_lim g x l -> derivable_pt_lim f x l.
Proof. intros E H e He. destruct (H e He) as [d Hd]. exists d. intros h Hh Hl. rewrite !E. now apply Hd. Qed.

Lemma dlim_local f g x l d : 0 < d -> (forall z, Rabs (z - x) < d -> f z = g z) -> derivable_pt_lim g x l -> derivable_pt_lim f x l.
Proof.
  intros Hd E H. apply is_derive_Reals. apply is_derive_Reals in H.
  apply (is_derive_ext_loc g); [|exact H]. exists (mkposreal d Hd). intros z Hz. symmetry. apply E. exact Hz.
Qed.
Lemma dlim_gt f g x l a : a < x -> (forall z, a < z -> f z = g z) -> derivable_pt_lim g x l -> derivable_pt_lim f x l.
Proof. intros Ha E. apply (dlim_local f g x l (x - a)); [lra|]. intros z Hz. apply E. apply Rabs_def2 in Hz. lra. Qed.
Lemma dlim_lt f g x l a : x < a -> (forall z, z < a -> f z = g z) -> derivable_pt_lim g x l -> derivable_pt_lim f x l.
Proof. intros Ha E. apply (dlim_local f g x l (a - x)); [lra|]. intros z Hz. apply E. apply Rabs_def2 in Hz. lra. Qed.
Lemma dlim_between f g x l a b : a < x < b -> (forall z, a < z < b -> f z = g z) -> derivable_pt_lim g x l -> derivable_pt_lim f x l.
Proof.
  intros Ha E. apply (dlim_local f g x l (Rmin (x - a) (b - x))); [apply Rmin_pos; lra|].
  intros z Hz. apply E. pose proof (Rmin_l (x - a) (b - x)). pose proof (Rmin_r (x - a) (b - x)). apply Rabs_def2 in Hz. lra.
Qed.
Lemma dlim_val f x l l' : l = l' -> derivable_pt_lim f x l -> derivable_pt_lim f x l'.
Proof. now intros ->. Qed.
Lemma dlim_unique f x l l' : derivable_pt_lim f x l -> derivable_pt_lim f x l' -> l = l'.
Proof. apply uniqueness_limite. Qed.

(** proves [derivable_pt_lim f x l] for closed-form f; leaves definedness conditions and the equality *)
Ltac dlim := apply is_derive_Reals; cbv beta zeta; auto_derive.
