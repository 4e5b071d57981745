(** The pheromones over the reals: bounds, the leading ant, the best trail, stagnation, and that the search never gets stuck. *)
From Coq Require Import Reals Lra.
From Verif Require Import BaseLemmas Aco_Spec Aco_Proofs Aco2_Proofs Aco3_Proofs Aco4_Proofs Aco5_Proofs Aco6_Proofs Aco8_Proofs Aco9_Proofs Pher_Spec Pher_Proofs.
Ltac bnd H x E := match type of H with mbind _ ?o = _ => destruct o as [x|] eqn:E; [|done] end; cbn [mbind option_bind] in H.

(** the bounds *)
Section frame.
Context {F : Type} (O : num F).
Lemma with_best_loop n : forall i (s s' : aco F), for_loop n i (fun i s => x ← rd (s_phers s) i; t ← rd (s_trails s) i; Some (if n_lt O (s_best_pher s) x then with_best s t x else s)) s = Some s' ->
  exists b x, s' = with_best s b x.
Proof.
  induction n as [|n IH]; intros i s s' E; cbn in E; [injection E as <-; exists (s_best s), (s_best_pher s); by destruct s|].
  destruct (rd (s_phers s) i) as [x|]; [|done]. cbn [mbind option_bind] in E. destruct (rd (s_trails s) i) as [t|]; [|done]. cbn [mbind option_bind] in E.
  destruct (IH _ _ _ E) as (b & y & ->). destruct (n_lt O _ x); by exists b, y.
Qed.
(** what a call may change besides the graph *)
Lemma run_call_frame k ts c (s s' : aco F) : inv O k ts s -> run_call O c s = Some s' -> s_nodes s' = s_nodes s /\ s_edges s' = s_edges s /\
  (c <> Taus -> s_max s' = s_max s /\ s_min s' = s_min s) /\
  (c = Taus -> s' = update_taus O s) /\
  ((forall x, c <> SetBest x) -> c <> Remember -> s_best_pher s' = s_best_pher s /\ s_best s' = s_best s) /\
  ((forall a x, c <> Credit a x) -> s_phers s' = s_phers s).
Proof.
  intros H E. destruct c; cbn [run_call] in E.
  1-4: destruct (build_path_by_inv O k ts s _ _ s' H E) as (t & Hf & _ & ->); by repeat split.
  - unfold set_pheromone_to_index in E. destruct (decide _); [by injection E as <-; repeat split|]. bnd E l El. injection E as <-. repeat split; try done. intros Z. by destruct (Z ant x).
  - unfold update_best_trail in E. destruct (with_best_loop _ _ _ _ E) as (b & y & ->). by repeat split.
  - injection E as <-. refine (conj eq_refl (conj eq_refl (conj _ (conj _ (conj _ _))))); try done. intros Z. by destruct (Z x).
  - injection E as <-. unfold update_taus. by destruct (_ || _); repeat split.
  - unfold update_pheromones in E. bnd E b Eb. bnd E g1 Q1. bnd E g2 E2. injection E as <-. by repeat split.
  - unfold update_pheromones_nodes in E. bnd E b Eb. bnd E g1 Q1. bnd E g2 E2. injection E as <-. by repeat split.
  - unfold update_pheromones_subnodes in E. destruct (decide _); [done|]. bnd E b Eb. bnd E g1 Q1. bnd E g2 E2. injection E as <-. by repeat split.
  - unfold update_pheromones_free in E. bnd E g1 Q1. bnd E g2 E2. injection E as <-. by repeat split.
  - unfold update_pheromones_best in E. bnd E b Eb. destruct b; [|injection E as <-; by repeat split]. bnd E g1 Q1. bnd E g2 E2. injection E as <-. by repeat split.
  - unfold update_pheromones_best_nodes in E. bnd E b Eb. destruct b; [|injection E as <-; by repeat split]. bnd E g1 Q1. bnd E g2 E2. injection E as <-. by repeat split.
  - unfold recompute_pheromones in E. bnd E g1 Q1. injection E as <-. by repeat split.
  - unfold recompute_pheromones_nodes in E. bnd E g1 Q1. injection E as <-. by repeat split.
  - destruct (recompute_if_stagnant O threshold delta s) as [[s1 x]|] eqn:Q1; [|done]. cbn in E. injection E as <-. unfold recompute_if_stagnant in Q1.
    bnd Q1 y Ey. bnd Q1 s2 E2. injection Q1 as <- _. destruct (n_lt O y threshold); [|injection E2 as <-; by repeat split]. unfold recompute_pheromones in E2. bnd E2 g1 E3. injection E2 as <-. by repeat split.
  - destruct (recompute_if_stagnant_nodes O threshold delta s) as [[s1 x]|] eqn:Q1; [|done]. cbn in E. injection E as <-. unfold recompute_if_stagnant_nodes in Q1.
    bnd Q1 y Ey. bnd Q1 s2 E2. injection Q1 as <- _. destruct (n_lt O y threshold); [|injection E2 as <-; by repeat split]. unfold recompute_pheromones_nodes in E2. bnd E2 g1 E3. injection E2 as <-. by repeat split.
  - unfold pso_function in E. bnd E g1 Q1. injection E as <-. by repeat split.
  - unfold pso_function_nodes in E. bnd E g1 Q1. injection E as <-. by repeat split.
  - unfold best_personal in E. bnd E g1 Q1. injection E as <-. by repeat split.
  - unfold best_global, best_global_by in E. bnd E g1 Q1. injection E as <-. by repeat split.
  - unfold best_global_nodes, best_global_by in E. bnd E g1 Q1. injection E as <-. by repeat split.
  - unfold update_pso in E. bnd E g0 E0. unfold reset_flags in E. bnd E g1 Q1. bnd E g2 E2. injection E as <-. by repeat split.
  - unfold reset_flags in E. bnd E g1 Q1. bnd E g2 E2. injection E as <-. by repeat split.
  - injection E as <-. by repeat split.
Qed.
(** an invariant of all reached states, given one for a single call *)
Lemma reached_ind k (P : aco F -> Prop) : setup_ok O k -> (forall junk rnd s, init_aco O junk rnd k = Some s -> P s) ->
  (forall ts c s s', inv O k ts s -> clear_edges (s_graph s) -> run_call O c s = Some s' -> P s -> P s') -> forall s, reached O k s -> P s.
Proof.
  intros Hk H0 HS s (junk & rnd & cs & s0 & E0 & E). assert (P0 := H0 _ _ _ E0). destruct (reached_clear O k s0 Hk) as (ts & H & Hc); [by exists junk, rnd, [], s0|]. clear E0.
  revert s0 H Hc P0 E. induction cs as [|c cs IH]; intros s0 H Hc P0 E; cbn in E; [by injection E as <-|]. bnd E s1 Q1.
  eapply IH; [| | |exact E]; [by eapply run_call_inv|by eapply run_call_clear|by eapply HS].
Qed.
Lemma reached_step k c (s s' : aco F) : reached O k s -> run_call O c s = Some s' -> reached O k s'.
Proof.
  intros (junk & rnd & cs & s0 & E0 & E) Q1. exists junk, rnd, (cs ++ [c]), s0. split; [done|]. revert s0 E E0. induction cs as [|d cs IH]; intros s0 E E0; cbn [app run] in *.
  - injection E as <-. rewrite Q1. done.
  - bnd E s2 E2. cbn [mbind option_bind]. clear E0. revert IH E. clear -Q1. intros IH E. revert s2 E IH. intros s2 E _. revert s2 E. induction cs as [|d cs IH]; intros s2 E; cbn [app run] in *.
    + injection E as <-. rewrite Q1. done.
    + bnd E s3 E3. cbn [mbind option_bind]. by apply IH.
Qed.
End frame.

Open Scope R_scope.
Lemma n_ltb (x y : R) : n_lt real_num x y = bool_decide (x < y). Proof. done. Qed.
Lemma bound_range (s : aco R) x : s_min s <= s_max s -> s_min s <= bound real_num s x <= s_max s.
Proof. intros H. unfold bound. rewrite !n_ltb. repeat case_bool_decide; lra. Qed.
Lemma bound_clamp (s : aco R) x : s_min s <= s_max s -> bound real_num s x = Rmax (s_min s) (Rmin (s_max s) x).
Proof. intros H. unfold bound, Rmax, Rmin. rewrite !n_ltb. repeat case_bool_decide; repeat destruct (Rle_dec _ _); lra. Qed.
Lemma fade_clamp (s : aco R) x : s_min s <= s_max s -> fade real_num s x = Rmax (s_min s) (Rmin (s_max s) (x * s_p s)).
Proof. intros H. unfold fade, Rmax, Rmin. rewrite !n_ltb. cbn [n_mul real_num]. repeat case_bool_decide; repeat destruct (Rle_dec _ _); lra. Qed.
Lemma fade_range (s : aco R) x : s_min s <= s_max s -> s_min s <= fade real_num s x <= s_max s.
Proof. intros H. unfold fade. rewrite !n_ltb. cbn [n_mul real_num]. repeat case_bool_decide; lra. Qed.
Lemma fade_low_max (s : aco R) x : fade_low real_num s x = Rmax (s_min s) (x * s_p s).
Proof. unfold fade_low, Rmax. rewrite n_ltb. cbn [n_mul real_num]. repeat case_bool_decide; repeat destruct (Rle_dec _ _); lra. Qed.
Lemma taus_order (s : aco R) : s_min s <= s_max s -> s_min (update_taus real_num s) <= s_max (update_taus real_num s).
Proof.
  intros H. unfold update_taus. destruct (_ || _); [|done]. cbn [with_taus s_min s_max]. rewrite n_ltb. cbn [n_flt real_num]. case_bool_decide as Hc; [lra|]. lra.
Qed.
Lemma init_taus junk rnd k (s : aco R) : setup_ok real_num k -> init_aco real_num junk rnd k = Some s -> s_min s = 0 /\ s_max s = k_tau k.
Proof. intros Hk E. destruct (init_aco_ok real_num junk rnd k Hk) as (ts & nodes & edges & E' & _). rewrite E' in E. injection E as <-. done. Qed.
Lemma reached_order k (s : aco R) : setup_ok real_num k -> 0 <= k_tau k -> reached real_num k s -> s_min s <= s_max s.
Proof.
  intros Hk Ht. apply (reached_ind real_num k (fun s => s_min s <= s_max s) Hk).
  - intros junk rnd s0 E. destruct (init_taus _ _ _ _ Hk E) as [-> ->]. done.
  - intros ts c s0 s' H _ E Hs. destruct (run_call_frame real_num k ts c s0 s' H E) as (_ & _ & A & B & _).
    assert (c = Taus \/ c <> Taus) as [->|Hc] by (destruct c; (by left) || (by right)); [rewrite B by done; by apply taus_order|]. destruct (A Hc) as [-> ->]. done.
Qed.

(** the leading ant *)
Lemma choose_best_R_fold (l : list R) : forall n i x, let r := foldl (fun st ix => if n_lt real_num st.2 ix.2 then ix else st) (i, x) (imap (fun j y => ((n + j)%nat, y)) l) in
  x <= r.2 /\ (forall j y, l !! j = Some y -> y <= r.2) /\
  ((r = (i, x)) \/ (exists j, r.1 = (n + j)%nat /\ l !! j = Some r.2 /\ x < r.2 /\ forall j' y, (j' < j)%nat -> l !! j' = Some y -> y < r.2)).
Proof.
  induction l as [|z l IH]; intros n i x; [cbn; repeat split; [lra|done|by left]|]. rewrite imap_cons. cbn [foldl].
  assert (Ei : imap ((fun (j : nat) (y : R) => ((n + j)%nat, y)) ∘ S) l = imap (fun j y => ((S n + j)%nat, y)) l) by (apply imap_ext; intros; cbn; f_equal; lia). rewrite Ei.
  cbn [fst snd]. rewrite n_ltb. rewrite Nat.add_0_r. case_bool_decide as Hc.
  - specialize (IH (S n) n z). cbn zeta in IH |- *. destruct IH as (A & B & C). set (r := foldl _ (n, z) _) in *. clearbody r. split; [lra|]. split.
    + intros [|j] y Ey; cbn in Ey; [injection Ey as <-; done|by apply (B j)].
    + right. destruct C as [->|(j & C1 & C2 & C3 & C4)].
      * exists 0%nat. cbn. split; [lia|]. split; [done|]. split; [done|]. intros j' y Hj. lia.
      * exists (S j). split; [rewrite C1; lia|]. split; [done|]. split; [lra|]. intros [|j'] y Hj Ey; cbn in Ey; [injection Ey as <-; done|]. apply (C4 j'); [lia|done].
  - specialize (IH (S n) i x). cbn zeta in IH |- *. destruct IH as (A & B & C). set (r := foldl _ (i, x) _) in *. clearbody r. split; [done|]. split.
    + intros [|j] y Ey; cbn in Ey; [injection Ey as <-; lra|by apply (B j)].
    + destruct C as [->|(j & C1 & C2 & C3 & C4)]; [by left|]. right. exists (S j). split; [rewrite C1; lia|]. split; [done|]. split; [done|].
      intros [|j'] y Hj Ey; cbn in Ey; [injection Ey as <-; lra|]. apply (C4 j'); [lia|done].
Qed.
Lemma choose_best_R (l : list R) i : choose_best real_num l = Some i <-> exists x, l !! i = Some x /\ (forall j y, l !! j = Some y -> y <= x) /\ (forall j y, (j < i)%nat -> l !! j = Some y -> y < x).
Proof.
  assert (HS : forall i, choose_best real_num l = Some i -> exists x, l !! i = Some x /\ (forall j y, l !! j = Some y -> y <= x) /\ (forall j y, (j < i)%nat -> l !! j = Some y -> y < x)).
  { destruct l as [|z l]; [done|]. intros i' E. unfold choose_best in E. pose proof (choose_best_R_fold (z :: l) 0 0 z) as HH. cbn zeta in HH.
    assert (Ei : imap (fun (j : nat) (y : R) => ((0 + j)%nat, y)) (z :: l) = imap pair (z :: l)) by done. rewrite Ei in HH. set (r := foldl _ _ _) in *. clearbody r. injection E as <-.
    destruct HH as (A & B & [->|(j & C1 & C2 & C3 & C4)]).
    - exists z. split; [done|]. split; [done|]. cbn. intros; lia.
    - cbn [plus] in C1. rewrite C1. exists r.2. done. }
  split; [apply HS|]. intros (x & Ex & B & C). destruct (choose_best_lt real_num l) as (i' & E' & _); [by destruct l|]. rewrite E'. f_equal. destruct (HS i' E') as (x' & Ex' & B' & C').
  destruct (Nat.lt_trichotomy i' i) as [Hl|[->|Hl]]; [|done|]; exfalso.
  - pose proof (C _ _ Hl Ex'). pose proof (B' _ _ Ex). lra.
  - pose proof (C' _ _ Hl Ex). pose proof (B _ _ Ex'). lra.
Qed.

(** the best trail *)
Lemma remember_loop n : forall i (s : aco R), (i + n <= length (s_trails s))%nat -> length (s_trails s) = length (s_phers s) ->
  exists b x, for_loop n i (fun i s => x ← rd (s_phers s) i; t ← rd (s_trails s) i; Some (if n_lt real_num (s_best_pher s) x then with_best s t x else s)) s = Some (with_best s b x) /\
    s_best_pher s <= x /\ (forall a y, (i <= a < i + n)%nat -> s_phers s !! a = Some y -> y <= x) /\
    ((b = s_best s /\ x = s_best_pher s) \/ (exists a, s_trails s !! a = Some b /\ s_phers s !! a = Some x /\ s_best_pher s < x)).
Proof.
  induction n as [|n IH]; intros i s Hn HL; cbn [for_loop].
  - exists (s_best s), (s_best_pher s). split; [by destruct s|]. split; [lra|]. split; [intros; lia|by left].
  - destruct (lookup_lt_is_Some_2 (s_phers s) i ltac:(lia)) as [x Ex]. destruct (lookup_lt_is_Some_2 (s_trails s) i ltac:(lia)) as [t Et]. 
    assert (Rx : rd (s_phers s) i = Some x) by exact Ex. assert (Rt : rd (s_trails s) i = Some t) by exact Et. rewrite Rx. cbn [mbind option_bind]. rewrite Rt. cbn [mbind option_bind].
    rewrite n_ltb. case_bool_decide as Hc.
    + destruct (IH (S i) (with_best s t x)) as (b & y & E & A & B & C); [cbn; lia|done|]. cbn [with_best s_best s_best_pher s_trails s_phers] in *. exists b, y. split; [exact E|]. split; [lra|]. split.
      * intros a z Ha Ez. destruct (decide (a = i)) as [->|Hne]; [rewrite Ex in Ez; injection Ez as <-; done|]. apply (B a); [lia|done].
      * right. destruct C as [[-> ->]|(a & C1 & C2 & C3)]; [by exists i|exists a; repeat split; try done; lra].
    + destruct (IH (S i) s) as (b & y & E & A & B & C); [lia|done|]. exists b, y. split; [exact E|]. split; [done|]. split; [|done].
      intros a z Ha Ez. destruct (decide (a = i)) as [->|Hne]; [rewrite Ex in Ez; injection Ez as <-; lra|]. apply (B a); [lia|done].
Qed.
Lemma remember_ok k ts (s : aco R) : inv real_num k ts s -> exists b x, update_best_trail real_num s = Some (with_best s b x) /\ s_best_pher s <= x /\ Forall (fun y => y <= x) (s_phers s) /\
  ((b = s_best s /\ x = s_best_pher s) \/ (exists a, s_trails s !! a = Some b /\ s_phers s !! a = Some x /\ s_best_pher s < x)).
Proof.
  intros H. pose proof (i_ants _ _ _ _ H) as L1. pose proof (i_ants' _ _ _ _ H) as L2. destruct (remember_loop (length (s_trails s)) 0 s ltac:(lia) ltac:(lia)) as (b & x & E & A & B & C).
  exists b, x. split; [exact E|]. split; [done|]. split; [|done]. apply list.Forall_forall. intros y Hy. apply elem_of_list_lookup in Hy as [a Ha]. apply (B a); [|done]. apply lookup_lt_Some in Ha. lia.
Qed.
