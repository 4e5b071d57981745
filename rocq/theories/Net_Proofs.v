From Coq Require Import R_sqrt.
From Verif Require Import NumLib Upd_Model Upd_Spec Net_Model Net_Spec.
Open Scope nat_scope.

Lemma sumsq_nil h : sumsq h [] = 0%R. Proof. done. Qed.
Lemma sumsq_app h L1 L2 : sumsq h (L1 ++ L2) = (sumsq h L1 + sumsq h L2)%R.
Proof. unfold sumsq. by rewrite map_app, suml_app. Qed.
Lemma sumsq_perm h L1 L2 : L1 ≡ₚ L2 -> sumsq h L1 = sumsq h L2.
Proof. intros E. unfold sumsq. apply suml_perm. by apply Permutation_map. Qed.
Lemma sumsq_nonneg h L : (0 <= sumsq h L)%R.
Proof. unfold sumsq. induction L as [|p L IH]; cbn [map]; [rewrite suml_nil; lra|]. rewrite suml_cons. pose proof (Rle_0_sqr (get h p)). unfold Rsqr in *. lra. Qed.

(** the shape of the heap: array lengths *)
Definition shaped (sz : nat -> name -> nat) (h : heap) : Prop := forall a nm, length (h a nm) = sz a nm.
Definition fits (sz : nat -> name -> nat) (L : list slot) : Prop := Forall (fun p => p.2 < sz p.1.1 p.1.2) L.
Lemma fits_app sz L1 L2 : fits sz (L1 ++ L2) <-> fits sz L1 /\ fits sz L2.
Proof. apply list.Forall_app. Qed.
Lemma fits_perm sz L1 L2 : L1 ≡ₚ L2 -> fits sz L1 -> fits sz L2.
Proof. unfold fits. intros E. by rewrite E. Qed.

(** scaling the gradients of a list, one after the other *)
Definition scale1 (k : R) (h : heap) (p : slot) : heap := hset h p.1.1 p.1.2 (<[p.2 := (get h p * k)%R]> (h p.1.1 p.1.2)).
Definition scale_all (k : R) (L : list slot) (h : heap) : heap := foldl (scale1 k) h L.
Lemma scale1_shaped sz k h p : shaped sz h -> shaped sz (scale1 k h p).
Proof. intros H a nm. unfold scale1, hset. case_decide as E; [destruct E as [-> ->]; rewrite insert_length|]; apply H. Qed.
Lemma scale_all_shaped sz k L h : shaped sz h -> shaped sz (scale_all k L h).
Proof. unfold scale_all. revert h. induction L as [|p L IH]; intros h H; cbn; [done|]. apply IH. by apply scale1_shaped. Qed.
Lemma get_scale1 k h p q : get (scale1 k h p) q = if decide (q = p) then (get h q * k)%R else get h q.
Proof.
  destruct (decide (q = p)) as [->|Hne].
  - destruct p as [[a nm] i]. unfold get, scale1, hset. cbn [fst snd]. rewrite decide_True by done. unfold get. cbn [fst snd].
    destruct (decide (i < length (h a nm))) as [Hl|Hl].
    + apply el_lookup. rewrite list_lookup_insert by exact Hl. reflexivity.
    + rewrite list_insert_ge by lia. rewrite !el_ge by lia. lra.
  - destruct p as [[a nm] i], q as [[a' nm'] i']. unfold get, scale1, hset. cbn [fst snd].
    case_decide as E2; [|done]. destruct E2 as [-> ->].
    assert (i' <> i) by (intros ->; by apply Hne). unfold el. rewrite !nth_lookup. by rewrite list_lookup_insert_ne by done.
Qed.
Fixpoint occ (p : slot) (L : list slot) : nat := match L with [] => 0 | q :: L => (if decide (p = q) then 1 else 0) + occ p L end.
Lemma get_scale_all k L h q : get (scale_all k L h) q = (get h q * k ^ occ q L)%R.
Proof.
  unfold scale_all. revert h. induction L as [|p L IH]; intros h; cbn [foldl occ]; [cbn; lra|]. rewrite IH, get_scale1. destruct (decide (q = p)); cbn [Nat.add]; rewrite <- ?tech_pow_Rmult; lra.
Qed.
Lemma occ_nodup q L : NoDup L -> occ q L = if decide (q ∈ L) then 1 else 0.
Proof.
  induction L as [|p L IH]; intros Hd; cbn [occ]; [rewrite decide_False by apply not_elem_of_nil; done|].
  apply list.NoDup_cons in Hd as [Hp Hd]. rewrite (IH Hd). destruct (decide (q = p)) as [->|Hne].
  - rewrite decide_False by done. rewrite decide_True by left. done.
  - destruct (decide (q ∈ L)); [rewrite decide_True by (by right); done|rewrite decide_False; [done|]]. rewrite elem_of_cons. by intros [?|?].
Qed.
Lemma scale_all_scaled k L S h : NoDup S -> L ≡ₚ S -> scaled k S h (scale_all k L h).
Proof.
  intros Hd HP. split.
  - intros a nm. by apply (scale_all_shaped (fun a nm => length (h a nm))).
  - intros p. rewrite get_scale_all, occ_nodup by (by rewrite HP). destruct (decide (p ∈ L)) as [H|H].
    + rewrite decide_True by (by rewrite <- HP). cbn. lra.
    + rewrite decide_False by (by rewrite <- HP). cbn. lra.
Qed.
Lemma sumsq_scaled k S h h' : scaled k S h h' -> sumsq h' S = (k * k * sumsq h S)%R.
Proof.
  intros [_ H]. unfold sumsq. rewrite (suml_map_ext _ (fun p => k * k * (get h p * get h p))%R).
  - induction S as [|p S IH] in |- *; cbn [map]; [rewrite !suml_nil; lra|]. rewrite !suml_cons, IH. lra.
  - intros p Hp. rewrite H, decide_True by done. lra.
Qed.

Section sz.
Context (sz : nat -> name -> nat).
Section sums.
Context (h : heap) (Hh : shaped sz h).
(** f adds the squares of L *)
Definition Sums (f : R -> option R) (L : list slot) : Prop := fits sz L -> forall s, f s = Some (s + sumsq h L)%R.
Lemma Sums_id : Sums Some [].
Proof. intros _ s. rewrite sumsq_nil. f_equal. lra. Qed.
Lemma Sums_seq f g L1 L2 : Sums f L1 -> Sums g L2 -> Sums (fun s => s ← f s; g s) (L1 ++ L2).
Proof. intros Hf Hg HL s. apply fits_app in HL as [H1 H2]. rewrite (Hf H1). cbn [mbind option_bind]. rewrite (Hg H2), sumsq_app. f_equal. lra. Qed.
Lemma Sums_eq f g L : (forall s, f s = g s) -> Sums g L -> Sums f L.
Proof. intros E H HL s. rewrite E. by apply H. Qed.
Lemma Sums_loop n i0 body L : (forall i, i0 <= i < i0 + n -> Sums (body i) (L i)) -> Sums (for_loop n i0 body) (concat (map L (seq i0 n))).
Proof.
  revert i0. induction n as [|n IH]; intros i0 H; [apply Sums_id|]. cbn [for_loop seq map concat]. apply Sums_seq; [apply H; lia|]. apply IH. intros. apply H. lia.
Qed.
Lemma Sums_sqr a nm i : Sums (sqr h a nm i) [(a, nm, i)].
Proof.
  intros HL s. inversion HL as [|p L Hp]; subst. cbn in Hp. unfold sqr. rewrite rd_el by (by rewrite Hh). cbn. f_equal. unfold sumsq. cbn. unfold get. cbn. lra.
Qed.
Lemma Sums_plus f L : Sums f L -> Sums (plus (f 0%R)) L.
Proof. intros H HL s. unfold plus. rewrite (H HL). cbn. f_equal. lra. Qed.
Lemma Sums_array a nm n : Sums (for_loop n 0 (sqr h a nm)) (arr a nm n).
Proof.
  replace (arr a nm n) with (concat (map (fun i => [(a, nm, i)]) (seq 0 n))).
  - apply Sums_loop. intros. apply Sums_sqr.
  - unfold arr. generalize (seq 0 n). induction l as [|x l IH]; cbn; [done|by rewrite IH].
Qed.
Lemma Sums_upto {A} (l : list A) body L : (forall x, x ∈ l -> Sums (body x) (L x)) -> Sums (over l body) (concat (map L l)).
Proof.
  intros H. unfold over, upto.
  enough (forall i0 (pre : list A), length pre = i0 -> Sums (for_loop (length l) i0 (fun i s => x ← rd (pre ++ l) i; body x s)) (concat (map L l))) as HH by (by apply (HH 0 [])).
  induction l as [|x l IH]; intros i0 pre Hp; [apply Sums_id|]. cbn [length for_loop map concat].
  eapply Sums_eq; [|apply Sums_seq].
  - intros s. replace (rd (pre ++ x :: l) i0) with (Some x); [cbn [mbind option_bind]; reflexivity|]. unfold rd. rewrite lookup_app_r by lia. by rewrite Hp, Nat.sub_diag.
  - apply H. left.
  - replace (pre ++ x :: l) with ((pre ++ [x]) ++ l) by (by rewrite <- app_assoc). apply IH; [intros; apply H; by right|]. rewrite app_length. cbn. lia.
Qed.
Lemma Sums_perm f L L' : L ≡ₚ L' -> Sums f L -> Sums f L'.
Proof. intros E H HL s. rewrite <- (sumsq_perm h _ _ E). apply H. by eapply fits_perm. Qed.
End sums.

Section scales.
Context (k : R).
Definition Scales (f : heap -> option heap) (L : list slot) : Prop := fits sz L -> forall h, shaped sz h -> f h = Some (scale_all k L h).
Lemma Scales_id : Scales Some [].
Proof. by intros _ h _. Qed.
Lemma Scales_seq f g L1 L2 : Scales f L1 -> Scales g L2 -> Scales (fun s => s ← f s; g s) (L1 ++ L2).
Proof.
  intros Hf Hg HL h Hh. apply fits_app in HL as [H1 H2]. rewrite (Hf H1 h Hh). cbn [mbind option_bind]. rewrite (Hg H2) by by apply scale_all_shaped.
  unfold scale_all. by rewrite foldl_app.
Qed.
Lemma Scales_eq f g L : (forall s, f s = g s) -> Scales g L -> Scales f L.
Proof. intros E H HL s. rewrite E. by apply H. Qed.
Lemma Scales_loop n i0 body L : (forall i, i0 <= i < i0 + n -> Scales (body i) (L i)) -> Scales (for_loop n i0 body) (concat (map L (seq i0 n))).
Proof.
  revert i0. induction n as [|n IH]; intros i0 H; [apply Scales_id|]. cbn [for_loop seq map concat]. apply Scales_seq; [apply H; lia|]. apply IH. intros. apply H. lia.
Qed.
Lemma Scales_mul a nm i : Scales (mul k a nm i) [(a, nm, i)].
Proof.
  intros HL h Hh. inversion HL as [|p L Hp]; subst. cbn in Hp. unfold mul. rewrite rd_el by (by rewrite Hh). cbn [mbind option_bind]. f_equal.
Qed.
Lemma Scales_array a nm n : Scales (for_loop n 0 (mul k a nm)) (arr a nm n).
Proof.
  replace (arr a nm n) with (concat (map (fun i => [(a, nm, i)]) (seq 0 n))).
  - apply Scales_loop. intros. apply Scales_mul.
  - unfold arr. generalize (seq 0 n). induction l as [|x l IH]; cbn; [done|by rewrite IH].
Qed.
Lemma Scales_upto {A} (l : list A) body L : (forall x, x ∈ l -> Scales (body x) (L x)) -> Scales (over l body) (concat (map L l)).
Proof.
  intros H. unfold over, upto.
  enough (forall i0 (pre : list A), length pre = i0 -> Scales (for_loop (length l) i0 (fun i s => x ← rd (pre ++ l) i; body x s)) (concat (map L l))) as HH by (by apply (HH 0 [])).
  induction l as [|x l IH]; intros i0 pre Hp; [apply Scales_id|]. cbn [length for_loop map concat].
  eapply Scales_eq; [|apply Scales_seq].
  - intros s. replace (rd (pre ++ x :: l) i0) with (Some x); [cbn [mbind option_bind]; reflexivity|]. unfold rd. rewrite lookup_app_r by lia. by rewrite Hp, Nat.sub_diag.
  - apply H. left.
  - replace (pre ++ x :: l) with ((pre ++ [x]) ++ l) by (by rewrite <- app_assoc). apply IH; [intros; apply H; by right|]. rewrite app_length. cbn. lia.
Qed.
End scales.
End sz.
