(** Gradients of functions of arrays, with the standard library's notion of derivative. *)
From Coquelicot Require Import Coquelicot.
From Verif Require Export NumLib Deriv.
Open Scope R_scope.

(** [has_partial F l k d]: the partial derivative of F at l with respect to entry k of the array is d *)
Definition has_partial (F : list R -> R) (l : list R) (k : nat) (d : R) : Prop :=
  derivable_pt_lim (fun t => F (<[k := t]> l)) (el l k) d.

(** <e, v> over the first n entries *)
Definition inner (n : nat) (e v : list R) : R := sumn n (fun i => el e i * el v i).

Lemma el_upd l k t i : (k < length l)%nat -> el (<[k := t]> l) i = if decide (i = k) then t else el l i.
Proof.
  intros Hk. destruct (decide (i = k)) as [->|].
  - apply el_lookup. by apply list_lookup_insert.
  - unfold el. rewrite !nth_lookup. by rewrite list_lookup_insert_ne.
Qed.
Lemma el_upd_eq l k t : (k < length l)%nat -> el (<[k := t]> l) k = t.
Proof. intros. rewrite el_upd by done. by rewrite decide_True. Qed.
Lemma el_upd_ne l k t i : i <> k -> el (<[k := t]> l) i = el l i.
Proof. intros. unfold el. rewrite !nth_lookup. by rewrite list_lookup_insert_ne. Qed.
Lemma upd_self l k : <[k := el l k]> l = l.
Proof.
  destruct (decide (k < length l)%nat).
  - apply list_insert_id. by apply lookup_el.
  - apply list_insert_ge. lia.
Qed.

Lemma dlim_sumn n (f : nat -> R -> R) x d : (forall i, (i < n)%nat -> derivable_pt_lim (f i) x (d i)) ->
  derivable_pt_lim (fun t => sumn n (fun i => f i t)) x (sumn n d).
Proof.
  induction n as [|n IH]; intros H; cbn [sumn].
  - apply derivable_pt_lim_const.
  - apply (derivable_pt_lim_plus (fun t => sumn n (fun i => f i t)) (f n)); [apply IH; intros; apply H; lia|apply H; lia].
Qed.
Lemma dlim_scal c f x d : derivable_pt_lim f x d -> derivable_pt_lim (fun t => c * f t) x (c * d).
Proof. intros. by apply derivable_pt_lim_scal. Qed.
Lemma dlim_plus f g x d e : derivable_pt_lim f x d -> derivable_pt_lim g x e -> derivable_pt_lim (fun t => f t + g t) x (d + e).
Proof. intros. by apply (derivable_pt_lim_plus f g). Qed.
Lemma dlim_mult f g x d e : derivable_pt_lim f x d -> derivable_pt_lim g x e -> derivable_pt_lim (fun t => f t * g t) x (d * g x + f x * e).
Proof. intros. by apply (derivable_pt_lim_mult f g). Qed.
Lemma dlim_div f g x d e : derivable_pt_lim f x d -> derivable_pt_lim g x e -> g x <> 0 ->
  derivable_pt_lim (fun t => f t / g t) x ((d * g x - e * f x) / (g x)²).
Proof. intros. by apply (derivable_pt_lim_div f g). Qed.
Lemma dlim_comp f g x d e : derivable_pt_lim f x d -> derivable_pt_lim g (f x) e -> derivable_pt_lim (fun t => g (f t)) x (e * d).
Proof. intros. by apply (derivable_pt_lim_comp f g). Qed.
Lemma dlim_const c x : derivable_pt_lim (fun _ => c) x 0.
Proof. apply derivable_pt_lim_const. Qed.
Lemma dlim_id x : derivable_pt_lim (fun t => t) x 1.
Proof. apply derivable_pt_lim_id. Qed.

(** an affine function t*a+b *)
Lemma dlim_affine f x a b : (forall t, f t = t * a + b) -> derivable_pt_lim f x a.
Proof. intros H. eapply dlim_ext; [exact H|]. dlim; [done|lra]. Qed.

(** projection of an updated array *)
Lemma dlim_el l k i : (k < length l)%nat -> derivable_pt_lim (fun t => el (<[k := t]> l) i) (el l k) (if decide (i = k) then 1 else 0).
Proof.
  intros Hk. destruct (decide (i = k)) as [->|Hne].
  - eapply dlim_ext; [intros; by apply el_upd_eq|]. apply dlim_id.
  - eapply dlim_ext; [intros; by apply el_upd_ne|]. apply dlim_const.
Qed.
Lemma sumn_delta n k (f : nat -> R) : (k < n)%nat -> sumn n (fun i => if decide (i = k) then f i else 0) = f k.
Proof. intros Hk. rewrite (sumn_single n k); [by rewrite decide_True|done|]. intros i _ Hne. by rewrite decide_False. Qed.
Arguments has_partial _ _ _%nat_scope _%R_scope.

(** [grad_added F l acc acc']: acc' is acc plus the gradient of F at l *)
Definition grad_added (F : list R -> R) (l acc acc' : list R) : Prop :=
  length acc' = length acc /\
  forall k, (k < length acc)%nat -> exists d, el acc' k = (el acc k + d)%R /\ has_partial F l k d.
