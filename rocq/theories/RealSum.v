(** Finite sums of reals (library, no model content). *)
From Coq Require Export Reals Lra.
From stdpp Require Export prelude list option.
From Verif Require Export BaseLemmas.
Open Scope R_scope.

#[global] Instance Rle_decision x y : Decision (x <= y) := Rle_dec x y.
#[global] Instance Rlt_decision x y : Decision (x < y) := Rlt_dec x y.
#[global] Instance Req_decision : EqDecision R := Req_EM_T.

(** f 0 + ... + f (n-1) *)
Fixpoint sumn (n : nat) (f : nat -> R) : R :=
  match n with O => 0 | S k => sumn k f + f k end.

(** sum of a list *)
Definition suml (l : list R) : R := foldr Rplus 0 l.

Lemma sumn_ext n f g : (forall i, (i < n)%nat -> f i = g i) -> sumn n f = sumn n g.
Proof. induction n as [|n IH]; intros H; cbn; [done|]. rewrite IH, H; [done|lia|]. intros. apply H. lia. Qed.
Lemma sumn_0 n f : (forall i, (i < n)%nat -> f i = 0) -> sumn n f = 0.
Proof. induction n as [|n IH]; intros H; cbn; [done|]. rewrite IH, H; [lra|lia|]. intros. apply H. lia. Qed.
Lemma sumn_plus n f g : sumn n (fun i => f i + g i) = sumn n f + sumn n g.
Proof. induction n as [|n IH]; cbn; [lra|]. rewrite IH. lra. Qed.
Lemma sumn_minus n f g : sumn n (fun i => f i - g i) = sumn n f - sumn n g.
Proof. induction n as [|n IH]; cbn; [lra|]. rewrite IH. lra. Qed.
Lemma sumn_scal_l n a f : sumn n (fun i => a * f i) = a * sumn n f.
Proof. induction n as [|n IH]; cbn; [lra|]. rewrite IH. lra. Qed.
Lemma sumn_scal_r n a f : sumn n (fun i => f i * a) = sumn n f * a.
Proof. induction n as [|n IH]; cbn; [lra|]. rewrite IH. lra. Qed.
Lemma sumn_const n a : sumn n (fun _ => a) = INR n * a.
Proof. induction n as [|n IH]; [cbn; lra|]. rewrite S_INR. cbn [sumn]. rewrite IH. lra. Qed.
Lemma sumn_swap n m f : sumn n (fun i => sumn m (fun j => f i j)) = sumn m (fun j => sumn n (fun i => f i j)).
Proof.
  induction n as [|n IH]; cbn.
  - symmetry. by apply sumn_0.
  - rewrite IH. by rewrite <- sumn_plus.
Qed.
Lemma sumn_single n k f : (k < n)%nat -> (forall i, (i < n)%nat -> i <> k -> f i = 0) -> sumn n f = f k.
Proof.
  induction n as [|n IH]; intros Hk H; [lia|]. cbn. destruct (decide (k = n)) as [->|].
  - rewrite sumn_0; [lra|]. intros. apply H; lia.
  - rewrite IH; [|lia|intros; apply H; lia]. rewrite (H n) by lia. lra.
Qed.
Lemma sumn_add n m f : sumn (n + m) f = sumn n f + sumn m (fun i => f (n + i)%nat).
Proof.
  induction m as [|m IH]; [rewrite Nat.add_0_r; cbn; lra|]. rewrite Nat.add_succ_r. cbn. rewrite IH. lra.
Qed.
Lemma sumn_S_l n f : sumn (S n) f = f 0%nat + sumn n (fun i => f (S i)).
Proof. change (S n) with (1 + n)%nat. rewrite sumn_add. cbn. lra. Qed.
Lemma sumn_le n f g : (forall i, (i < n)%nat -> f i <= g i) -> sumn n f <= sumn n g.
Proof. induction n as [|n IH]; intros H; cbn; [lra|]. specialize (IH ltac:(intros; apply H; lia)). specialize (H n ltac:(lia)). lra. Qed.
Lemma sumn_nonneg n f : (forall i, (i < n)%nat -> 0 <= f i) -> 0 <= sumn n f.
Proof. intros H. rewrite <- (sumn_0 n (fun _ => 0)) by done. by apply sumn_le. Qed.
Lemma sumn_lt n f g : (0 < n)%nat -> (forall i, (i < n)%nat -> f i < g i) -> sumn n f < sumn n g.
Proof.
  intros Hn H. destruct n as [|n]; [lia|]. cbn. assert (sumn n f <= sumn n g).
  { apply sumn_le. intros. left. apply H. lia. } specialize (H n ltac:(lia)). lra.
Qed.
Lemma sumn_pos n f : (0 < n)%nat -> (forall i, (i < n)%nat -> 0 < f i) -> 0 < sumn n f.
Proof. intros Hn H. rewrite <- (sumn_0 n (fun _ => 0)) by done. by apply sumn_lt. Qed.
Lemma sumn_ge_term n f k : (k < n)%nat -> (forall i, (i < n)%nat -> 0 <= f i) -> f k <= sumn n f.
Proof.
  induction n as [|n IH]; intros Hk H; [lia|]. cbn. assert (0 <= sumn n f) by (apply sumn_nonneg; intros; apply H; lia).
  destruct (decide (k = n)) as [->|]; [lra|]. specialize (IH ltac:(lia) ltac:(intros; apply H; lia)). specialize (H n ltac:(lia)). lra.
Qed.
Lemma sumn_update n k f g : (k < n)%nat -> (forall i, (i < n)%nat -> i <> k -> f i = g i) -> sumn n f = sumn n g + (f k - g k).
Proof.
  intros Hk H. assert (sumn n (fun i => f i - g i) = f k - g k) as <-.
  { apply (sumn_single n k (fun i => f i - g i)); [done|]. intros i Hi Hne. rewrite H by done. lra. }
  rewrite sumn_minus. lra.
Qed.

Lemma suml_app l1 l2 : suml (l1 ++ l2) = suml l1 + suml l2.
Proof. unfold suml. induction l1 as [|x l IH]; cbn; [lra|]. rewrite IH. lra. Qed.
Lemma suml_nil : suml [] = 0.
Proof. done. Qed.
Lemma suml_cons x l : suml (x :: l) = x + suml l.
Proof. done. Qed.
Lemma suml_perm l1 l2 : l1 ≡ₚ l2 -> suml l1 = suml l2.
Proof. induction 1; unfold suml in *; cbn; lra. Qed.
Lemma suml_nonneg l : Forall (fun x => 0 <= x) l -> 0 <= suml l.
Proof. unfold suml. induction 1; cbn; lra. Qed.
Lemma suml_map_ext {A} (f g : A -> R) l : (forall x, x ∈ l -> f x = g x) -> suml (map f l) = suml (map g l).
Proof.
  induction l as [|x l IH]; intros H; cbn; [done|]. unfold suml in *. rewrite IH by (intros; apply H; set_solver).
  rewrite H by set_solver. done.
Qed.
Lemma suml_map_plus {A} (f g : A -> R) l : suml (map (fun x => f x + g x) l) = suml (map f l) + suml (map g l).
Proof. induction l as [|x l IH]; cbn; [unfold suml; cbn; lra|]. unfold suml in *. rewrite IH. lra. Qed.
Lemma suml_map_0 {A} (f : A -> R) l : (forall x, x ∈ l -> f x = 0) -> suml (map f l) = 0.
Proof. induction l as [|x l IH]; intros H; cbn; [done|]. unfold suml in *. rewrite H, IH; [lra| |]; intros; try apply H; set_solver. Qed.
Lemma suml_seq f n : suml (map f (seq 0 n)) = sumn n f.
Proof.
  induction n as [|n IH]; [done|]. rewrite seq_S, map_app, suml_app, IH. cbn. unfold suml. cbn. lra.
Qed.
