(** Double and triple sums, and loops that accumulate into two arrays. *)
From Verif Require Export NumLib2 Grad.
Open Scope nat_scope.

Definition sum2 (a b : nat) (f : nat -> nat -> R) : R := sumn a (fun i => sumn b (f i)).
Definition sum3 (a b c : nat) (f : nat -> nat -> nat -> R) : R := sumn a (fun i => sum2 b c (f i)).

Lemma sum2_ext a b f g : (forall i j, i < a -> j < b -> f i j = g i j) -> sum2 a b f = sum2 a b g.
Proof. intros H. apply sumn_ext. intros i Hi. apply sumn_ext. auto. Qed.
Lemma sum3_ext a b c f g : (forall i j k, i < a -> j < b -> k < c -> f i j k = g i j k) -> sum3 a b c f = sum3 a b c g.
Proof. intros H. apply sumn_ext. intros i Hi. apply sum2_ext. auto. Qed.
Lemma sum2_0 a b f : (forall i j, i < a -> j < b -> f i j = 0%R) -> sum2 a b f = 0%R.
Proof. intros H. apply sumn_0. intros i Hi. apply sumn_0. auto. Qed.
Lemma sum3_0 a b c f : (forall i j k, i < a -> j < b -> k < c -> f i j k = 0%R) -> sum3 a b c f = 0%R.
Proof. intros H. apply sumn_0. intros i Hi. apply sum2_0. auto. Qed.
Lemma sum2_plus a b f g : sum2 a b (fun i j => f i j + g i j)%R = (sum2 a b f + sum2 a b g)%R.
Proof. unfold sum2. rewrite <- sumn_plus. apply sumn_ext. intros. by rewrite sumn_plus. Qed.
Lemma sum2_scal c a b f : (c * sum2 a b f = sum2 a b (fun i j => c * f i j))%R.
Proof. unfold sum2. rewrite <- sumn_scal_l. apply sumn_ext. intros. by rewrite sumn_scal_l. Qed.
Lemma sum3_scal c a b d f : (c * sum3 a b d f = sum3 a b d (fun i j k => c * f i j k))%R.
Proof. unfold sum3. rewrite <- sumn_scal_l. apply sumn_ext. intros. by rewrite sum2_scal. Qed.
Lemma sum2_swap a b f : sum2 a b f = sum2 b a (fun j i => f i j).
Proof. apply sumn_swap. Qed.
Lemma sum2_sum2_swap a b c d (f : nat -> nat -> nat -> nat -> R) :
  sum2 a b (fun i j => sum2 c d (fun k l => f i j k l)) = sum2 c d (fun k l => sum2 a b (fun i j => f i j k l)).
Proof.
  unfold sum2. transitivity (sumn a (fun i => sumn c (fun k => sumn b (fun j => sumn d (fun l => f i j k l))))).
  { apply sumn_ext. intros i _. apply (sumn_swap b c (fun j k => sumn d (fun l => f i j k l))). }
  rewrite sumn_swap. apply sumn_ext. intros k _.
  transitivity (sumn a (fun i => sumn d (fun l => sumn b (fun j => f i j k l)))).
  { apply sumn_ext. intros i _. apply (sumn_swap b d (fun j l => f i j k l)). }
  apply (sumn_swap a d (fun i l => sumn b (fun j => f i j k l))).
Qed.
Lemma sumn_sum2_swap a c d (f : nat -> nat -> nat -> R) :
  sumn a (fun i => sum2 c d (fun k l => f i k l)) = sum2 c d (fun k l => sumn a (fun i => f i k l)).
Proof. unfold sum2. rewrite sumn_swap. apply sumn_ext. intros k _. apply (sumn_swap a d (fun i l => f i k l)). Qed.
Lemma sumn_sum3_swap a b c d (f : nat -> nat -> nat -> nat -> R) :
  sumn a (fun i => sum3 b c d (fun k l m => f i k l m)) = sum3 b c d (fun k l m => sumn a (fun i => f i k l m)).
Proof. unfold sum3. rewrite sumn_swap. apply sumn_ext. intros k _. apply (sumn_sum2_swap a c d (fun i l m => f i k l m)). Qed.
Lemma sum2_sum3_swap a a' b c d (f : nat -> nat -> nat -> nat -> nat -> R) :
  sum2 a a' (fun i i' => sum3 b c d (fun k l m => f i i' k l m)) = sum3 b c d (fun k l m => sum2 a a' (fun i i' => f i i' k l m)).
Proof.
  unfold sum2. transitivity (sumn a (fun i => sum3 b c d (fun k l m => sumn a' (fun i' => f i i' k l m)))).
  { apply sumn_ext. intros i _. apply (sumn_sum3_swap a' b c d (fun i' k l m => f i i' k l m)). }
  apply (sumn_sum3_swap a b c d (fun i k l m => sumn a' (fun i' => f i i' k l m))).
Qed.
Lemma dlim_sum2 a b (f : nat -> nat -> R -> R) x d : (forall i j, i < a -> j < b -> derivable_pt_lim (f i j) x (d i j)) ->
  derivable_pt_lim (fun t => sum2 a b (fun i j => f i j t)) x (sum2 a b d).
Proof. intros H. apply (dlim_sumn a (fun i t => sumn b (fun j => f i j t))). intros i Hi. apply dlim_sumn. auto. Qed.
Lemma dlim_sum3 a b c (f : nat -> nat -> nat -> R -> R) x d : (forall i j k, i < a -> j < b -> k < c -> derivable_pt_lim (f i j k) x (d i j k)) ->
  derivable_pt_lim (fun t => sum3 a b c (fun i j k => f i j k t)) x (sum3 a b c d).
Proof. intros H. apply (dlim_sumn a (fun i t => sum2 b c (fun j k => f i j k t))). intros i Hi. apply dlim_sum2. auto. Qed.

Lemma sum2_hit a b k (v : nat -> nat -> R) : k < a * b -> sum2 a b (fun i j => if decide (k = i * b + j) then v i j else 0%R) = v (k / b) (k mod b).
Proof. apply sumn_hit. Qed.
(** at most one pair hits *)
Lemma sum2_single a b i0 j0 f : i0 < a -> j0 < b -> (forall i j, i < a -> j < b -> i <> i0 \/ j <> j0 -> f i j = 0%R) -> sum2 a b f = f i0 j0.
Proof.
  intros Hi Hj H. unfold sum2. rewrite (sumn_single a i0); [|done|].
  - apply sumn_single; [done|]. intros j Hj' Hne. apply H; auto.
  - intros i Hi' Hne. apply sumn_0. intros j Hj'. apply H; auto.
Qed.

(** a rectangular region of a larger rectangle *)
Lemma sumn_window n p m f : p + m <= n -> sumn n (fun q => if decide (p <= q < p + m) then f q else 0%R) = sumn m (fun r => f (p + r)).
Proof.
  intros H. replace n with (p + (m + (n - p - m))) by lia. rewrite !sumn_add. rewrite sumn_0; [|intros; by rewrite decide_False by lia].
  rewrite (sumn_0 (n - p - m)); [|intros; by rewrite decide_False by lia]. rewrite Rplus_0_l, Rplus_0_r. apply sumn_ext. intros i Hi. by rewrite decide_True by lia.
Qed.
Lemma sumn_interior (I J p : nat) (rows cols : nat) (f : nat -> R) : p + rows <= I -> p + cols <= J ->
  sumn (I * J) (fun q => if decide (p <= q / J < p + rows /\ p <= q mod J < p + cols) then f q else 0%R) =
  sum2 rows cols (fun r s => f ((p + r) * J + (p + s))).
Proof.
  intros HI HJ. rewrite sumn_mul. unfold sum2.
  rewrite <- (sumn_window I p rows (fun i => sumn cols (fun s => f (i * J + (p + s))))) by done.
  apply sumn_ext. intros i Hi. destruct (decide (p <= i < p + rows)) as [Hw|Hw].
  - rewrite <- (sumn_window J p cols (fun j => f (i * J + j))) by done. apply sumn_ext. intros j Hj. rewrite flat_div, flat_mod by done.
    destruct (decide (p <= j < p + cols)); [by rewrite decide_True|by rewrite decide_False by naive_solver].
  - apply sumn_0. intros j Hj. rewrite flat_div by done. by rewrite decide_False by naive_solver.
Qed.

(** [Adds] for doubly and triply nested loops *)
Lemma Adds_loop2 n a b i0 j0 body D : (forall i j, i < a -> j < b -> Adds n (body (i0 + i) (j0 + j)) (D i j)) ->
  Adds n (for_loop a i0 (fun i => for_loop b j0 (body i))) (fun k => sum2 a b (fun i j => D i j k)).
Proof.
  intros H. eapply Adds_ext.
  - apply (Adds_loop_from n a i0 _ (fun i k => sumn b (fun j => D (i - i0) j k))). intros i Hi. eapply Adds_ext.
    + apply (Adds_loop_from n b j0 _ (fun j k => D (i - i0) (j - j0) k)). intros j Hj.
      replace i with (i0 + (i - i0)) at 1 by lia. replace j with (j0 + (j - j0)) at 1 by lia. apply H; lia.
    + intros k Hk. cbn beta. apply sumn_ext. intros j Hj. by replace (j0 + j - j0) with j by lia.
  - intros k Hk. cbn beta. apply sumn_ext. intros i Hi. by replace (i0 + i - i0) with i by lia.
Qed.
Lemma Adds_loop3 n a b c body D : (forall i j k, i < a -> j < b -> k < c -> Adds n (body i j k) (D i j k)) ->
  Adds n (for_loop a 0 (fun i => for_loop b 0 (fun j => for_loop c 0 (body i j)))) (fun q => sum3 a b c (fun i j k => D i j k q)).
Proof.
  intros H. apply (Adds_loop n a _ (fun i q => sum2 b c (fun j k => D i j k q))). intros i Hi. apply (Adds_loop2 n b c 0 0). intros j k Hj Hk. by apply H.
Qed.

(** two arrays at once *)
Definition Adds2 (n m : nat) (f : list R * list R -> option (list R * list R)) (D E : nat -> R) : Prop :=
  forall a b, length a = n -> length b = m -> f (a, b) = Some (imap (fun k x => x + D k)%R a, imap (fun k x => x + E k)%R b).
Lemma Adds2_ext n m f D E D' E' : Adds2 n m f D E -> (forall k, k < n -> D k = D' k) -> (forall k, k < m -> E k = E' k) -> Adds2 n m f D' E'.
Proof.
  intros H H1 H2 a b Ha Hb. rewrite (H a b Ha Hb). do 2 f_equal; apply imap_ext_lt; intros k x Hk _; [rewrite H1|rewrite H2]; done || lia.
Qed.
Lemma Adds2_body n m f fa fb D E : (forall a b, length a = n -> length b = m -> f (a, b) = (a' ← fa a; b' ← fb b; Some (a', b'))) ->
  Adds n fa D -> Adds m fb E -> Adds2 n m f D E.
Proof. intros H H1 H2 a b Ha Hb. rewrite (H a b Ha Hb). rewrite (H1 a Ha). cbn [mbind option_bind]. by rewrite (H2 b Hb). Qed.
Lemma Adds2_loop_from n m cnt i0 body D E : (forall i, i < cnt -> Adds2 n m (body (i0 + i)) (D i) (E i)) ->
  Adds2 n m (for_loop cnt i0 body) (fun k => sumn cnt (fun i => D i k)) (fun k => sumn cnt (fun i => E i k)).
Proof.
  revert i0 D E. induction cnt as [|cnt IH]; intros i0 D E H a b Ha Hb; cbn [for_loop].
  - do 2 f_equal; symmetry; (etransitivity; [|apply imap_id]); apply imap_ext_lt; intros; cbn; lra.
  - pose proof (H 0 ltac:(lia) a b Ha Hb) as H0. rewrite Nat.add_0_r in H0. rewrite H0. cbn [mbind option_bind].
    rewrite (IH (S i0) (fun i => D (S i)) (fun i => E (S i))); [|intros i Hi; replace (S i0 + i) with (i0 + S i) by lia; apply H; lia|by rewrite imap_length..].
    rewrite !imap_imap. do 2 f_equal; apply imap_ext_lt; intros k x Hk _; rewrite sumn_S_l; lra.
Qed.
Lemma Adds2_loop2 n m a b i0 j0 body D E : (forall i j, i < a -> j < b -> Adds2 n m (body (i0 + i) (j0 + j)) (D i j) (E i j)) ->
  Adds2 n m (for_loop a i0 (fun i => for_loop b j0 (body i))) (fun k => sum2 a b (fun i j => D i j k)) (fun k => sum2 a b (fun i j => E i j k)).
Proof.
  intros H. apply (Adds2_loop_from n m a i0 _ (fun i k => sumn b (fun j => D i j k)) (fun i k => sumn b (fun j => E i j k))). intros i Hi.
  apply (Adds2_loop_from n m b j0 _ (fun j k => D i j k) (fun j k => E i j k)). intros j Hj. by apply H.
Qed.
Lemma Adds2_loop3 n m a b c body D E : (forall i j k, i < a -> j < b -> k < c -> Adds2 n m (body i j k) (D i j k) (E i j k)) ->
  Adds2 n m (for_loop a 0 (fun i => for_loop b 0 (fun j => for_loop c 0 (body i j)))) (fun q => sum3 a b c (fun i j k => D i j k q)) (fun q => sum3 a b c (fun i j k => E i j k q)).
Proof.
  intros H. apply (Adds2_loop_from n m a 0 _ (fun i q => sum2 b c (fun j k => D i j k q)) (fun i q => sum2 b c (fun j k => E i j k q))). intros i Hi.
  apply (Adds2_loop2 n m b c 0 0). intros j k Hj Hk. by apply H.
Qed.

(** Overwriting loops whose iterations write distinct cells. *)
Lemma fill1 n cnt i0 body (pos : nat -> nat) (v : nat -> R) l :
  (forall r l, r < cnt -> length l = n -> body (i0 + r) l = wr l (pos r) (v r)) ->
  (forall r, r < cnt -> pos r < n) -> (forall r r', r < cnt -> r' < cnt -> pos r = pos r' -> r = r') -> length l = n ->
  exists l', for_loop cnt i0 body l = Some l' /\ length l' = n /\ (forall r, r < cnt -> el l' (pos r) = v r) /\
    (forall q, (forall r, r < cnt -> q <> pos r) -> el l' q = el l q).
Proof.
  intros Hb Hp Hinj Hl.
  destruct (for_loop_inv (fun i l' => length l' = n /\ (forall r, r < i - i0 -> el l' (pos r) = v r) /\ (forall q, (forall r, r < i - i0 -> q <> pos r) -> el l' q = el l q)) body cnt i0 l) as (l' & E & H1 & H2 & H3).
  - split; [done|]. split; [intros; lia|done].
  - intros i a Hi (La & H1 & H2). pose proof (Hb (i - i0) a ltac:(lia) La) as E. replace (i0 + (i - i0)) with i in E by lia.
    pose proof (Hp (i - i0) ltac:(lia)). rewrite wr_Some in E by lia. eexists. split; [exact E|]. split; [by rewrite insert_length|]. split.
    + intros r Hr. destruct (decide (r = i - i0)) as [->|Hne].
      * rewrite el_upd_eq by lia. done.
      * rewrite el_upd_ne; [apply H1; lia|]. intros Eq. apply Hne. apply Hinj; [lia|lia|done].
    + intros q Hq. rewrite el_upd_ne by (apply Hq; lia). apply H2. intros r Hr. apply Hq. lia.
  - exists l'. split; [done|]. split; [done|]. replace (i0 + cnt - i0) with cnt in * by lia. done.
Qed.
Lemma fill2 n rows cols i0 j0 body (pos : nat -> nat -> nat) (v : nat -> nat -> R) l :
  (forall r s l, r < rows -> s < cols -> length l = n -> body (i0 + r) (j0 + s) l = wr l (pos r s) (v r s)) ->
  (forall r s, r < rows -> s < cols -> pos r s < n) ->
  (forall r s r' s', r < rows -> s < cols -> r' < rows -> s' < cols -> pos r s = pos r' s' -> r = r' /\ s = s') -> length l = n ->
  exists l', for_loop rows i0 (fun i => for_loop cols j0 (body i)) l = Some l' /\ length l' = n /\
    (forall r s, r < rows -> s < cols -> el l' (pos r s) = v r s) /\
    (forall q, (forall r s, r < rows -> s < cols -> q <> pos r s) -> el l' q = el l q).
Proof.
  intros Hb Hp Hinj Hl.
  destruct (for_loop_inv (fun i l' => length l' = n /\ (forall r s, r < i - i0 -> s < cols -> el l' (pos r s) = v r s) /\
      (forall q, (forall r s, r < i - i0 -> s < cols -> q <> pos r s) -> el l' q = el l q)) (fun i => for_loop cols j0 (body i)) rows i0 l) as (l' & E & H1 & H2 & H3).
  - split; [done|]. split; [intros; lia|done].
  - intros i a Hi (La & H1 & H2).
    destruct (fill1 n cols j0 (body i) (pos (i - i0)) (v (i - i0)) a) as (b & Eb & Lb & B1 & B2).
    + intros s c Hs Hc. rewrite <- (Hb (i - i0) s c) by lia. by replace (i0 + (i - i0)) with i by lia.
    + intros s Hs. apply Hp; lia.
    + intros s s' Hs Hs' Eq. apply (Hinj (i - i0) s (i - i0) s'); lia.
    + done.
    + exists b. split; [done|]. split; [done|]. split.
      * intros r s Hr Hs. destruct (decide (r = i - i0)) as [->|Hne]; [by apply B1|].
        rewrite B2; [apply H1; lia|]. intros s' Hs' Eq. apply Hne. apply (Hinj r s (i - i0) s'); lia.
      * intros q Hq. rewrite B2; [|intros s Hs; apply Hq; lia]. apply H2. intros r s Hr Hs. apply Hq; lia.
  - exists l'. split; [done|]. split; [done|]. replace (i0 + rows - i0) with rows in * by lia. done.
Qed.

(** Invariant of a doubly nested loop, indexed by the number of completed iterations. *)
Lemma for_loop_inv2 {S} (P : nat -> S -> Prop) (body : nat -> nat -> S -> option S) a b i0 j0 st :
  P 0 st -> (forall r s st, r < a -> s < b -> P (r * b + s) st -> exists st', body (i0 + r) (j0 + s) st = Some st' /\ P (r * b + s + 1) st') ->
  exists st', for_loop a i0 (fun i => for_loop b j0 (body i)) st = Some st' /\ P (a * b) st'.
Proof.
  intros H0 Hb. destruct (for_loop_inv (fun i st => P ((i - i0) * b) st) (fun i => for_loop b j0 (body i)) a i0 st) as (st' & E & H).
  - by rewrite Nat.sub_diag.
  - intros i s Hi Hs. destruct (for_loop_inv (fun j st => P ((i - i0) * b + (j - j0)) st) (body i) b j0 s) as (s' & E & H).
    + by rewrite Nat.sub_diag, Nat.add_0_r.
    + intros j t Hj Ht. destruct (Hb (i - i0) (j - j0) t ltac:(lia) ltac:(lia) Ht) as (t' & E & H).
      replace (i0 + (i - i0)) with i in E by lia. replace (j0 + (j - j0)) with j in E by lia. exists t'. split; [done|].
      by replace (Datatypes.S j - j0) with (j - j0 + 1) by lia; rewrite Nat.add_assoc.
    + exists s'. split; [done|]. replace (j0 + b - j0) with b in H by lia. replace (Datatypes.S i - i0) with (i - i0 + 1) by lia. by replace ((i - i0 + 1) * b) with ((i - i0) * b + b) by lia.
  - exists st'. split; [done|]. by replace (i0 + a - i0) with a in H by lia.
Qed.
