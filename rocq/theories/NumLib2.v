(** More finite-sum and loop facts for two-dimensional arrays stored row by row. *)
From Verif Require Export NumLib.
Open Scope nat_scope.

Lemma sumn_mul a b f : sumn (a * b) f = sumn a (fun i => sumn b (fun j => f (i * b + j))).
Proof.
  induction a as [|a IH]; [done|]. cbn [sumn]. rewrite <- IH. replace (S a * b) with (a * b + b) by lia. by rewrite sumn_add.
Qed.
(** [a*b+j = c*b+i] with j,i < b *)
Lemma flat_inj b i j i' j' : j < b -> j' < b -> i * b + j = i' * b + j' -> i = i' /\ j = j'.
Proof.
  intros Hj Hj' E. assert (i = i') as ->; [|lia].
  destruct (Nat.lt_trichotomy i i') as [H|[H|H]]; [|done|].
  - assert ((i + 1) * b <= i' * b) by (apply Nat.mul_le_mono_r; lia). lia.
  - assert ((i' + 1) * b <= i * b) by (apply Nat.mul_le_mono_r; lia). lia.
Qed.
Lemma flat_lt a b i j : i < a -> j < b -> i * b + j < a * b.
Proof. intros Hi Hj. assert ((i + 1) * b <= a * b) by (apply Nat.mul_le_mono_r; lia). lia. Qed.
Lemma flat_split a b k : k < a * b -> k / b < a /\ k mod b < b /\ k = (k / b) * b + k mod b.
Proof.
  intros Hk. assert (b <> 0) by lia. split; [apply Nat.div_lt_upper_bound; lia|]. split; [by apply Nat.mod_upper_bound|].
  pose proof (Nat.div_mod k b ltac:(done)). lia.
Qed.
Lemma flat_div b i j : j < b -> (i * b + j) / b = i.
Proof. intros H. rewrite Nat.div_add_l by lia. rewrite Nat.div_small by done. lia. Qed.
Lemma flat_mod b i j : j < b -> (i * b + j) mod b = j.
Proof. intros H. rewrite Nat.add_comm, Nat.mod_add by lia. by apply Nat.mod_small. Qed.

(** the entry hit by a full double loop over rows and columns *)
Lemma sumn_hit a b k (v : nat -> nat -> R) : k < a * b ->
  sumn a (fun i => sumn b (fun j => if decide (k = i * b + j) then v i j else 0%R)) = v (k / b) (k mod b).
Proof.
  intros Hk. destruct (flat_split a b k Hk) as (H1 & H2 & H3).
  rewrite (sumn_single a (k / b)); [|done|].
  - rewrite (sumn_single b (k mod b)); [by rewrite decide_True|done|]. intros j Hj Hne. rewrite decide_False; [done|]. intros E. apply Hne.
    rewrite H3 in E. apply flat_inj in E; [|done..]. lia.
  - intros i Hi Hne. apply sumn_0. intros j Hj. rewrite decide_False; [done|]. intros E. apply Hne. rewrite H3 in E. apply flat_inj in E; [|done..]. lia.
Qed.

Lemma suml_map_seq {A} (g : A -> R) (l : list A) (d : A) : suml (map g l) = sumn (length l) (fun t => g (nth t l d)).
Proof.
  rewrite <- suml_seq. f_equal. apply list_eq. intros i. change (map ?f ?x) with (f <$> x). rewrite !list_lookup_fmap.
  destruct (decide (i < length l)).
  - rewrite lookup_seq_lt by done. cbn. destruct (l !! i) as [x|] eqn:E; [|apply lookup_ge_None in E; lia]. cbn. by erewrite nth_lookup_Some.
  - rewrite lookup_ge_None_2 by lia. by rewrite lookup_seq_ge by lia.
Qed.
Lemma suml_map_filter {A} (P : A -> Prop) `{forall x, Decision (P x)} (g : A -> R) l :
  suml (map g (filter P l)) = suml (map (fun x => if decide (P x) then g x else 0%R) l).
Proof.
  induction l as [|x l IH]; [done|]. rewrite filter_cons. cbn. destruct (decide (P x)); cbn; unfold suml in *; cbn; rewrite IH; lra.
Qed.
Lemma suml_nodup (g : nat -> R) (l : list nat) N : NoDup l -> (forall k, k ∈ l -> k < N) ->
  suml (map g l) = sumn N (fun k => if decide (k ∈ l) then g k else 0%R).
Proof.
  intros Hn Hl. rewrite <- suml_seq. rewrite <- suml_map_filter. apply suml_perm. apply fmap_Permutation.
  apply NoDup_Permutation; [done|apply list.NoDup_filter, NoDup_seq|]. intros x. rewrite elem_of_list_filter, elem_of_seq. naive_solver lia.
Qed.
Lemma nth_drop {A} (l : list A) n t d : nth t (drop n l) d = nth (n + t) l d.
Proof. rewrite !nth_lookup. by rewrite lookup_drop. Qed.
Lemma sumn_drop {A} (g : A -> R) (l : list A) (d : A) n m : n + m = length l ->
  sumn m (fun t => g (nth (n + t) l d)) = suml (map g (drop n l)).
Proof.
  intros E. rewrite (suml_map_seq g (drop n l) d). rewrite drop_length. replace (length l - n) with m by lia. apply sumn_ext. intros t _. by rewrite nth_drop.
Qed.
