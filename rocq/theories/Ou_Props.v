(** C40, C56: Ornstein-Uhlenbeck exploration noise *)
From Coq Require Import Reals Lra Floats.SpecFloat.
From Verif Require Import NumLib BaseLemmas Duel_Model Ou_Model Ou_Spec Ou_Proofs.
Open Scope nat_scope.

(** every action of every call is in range, over exact reals *)
Theorem C40_reals cs (o : ou R) : well_formed o -> bounds_R o -> Forall (enough o) cs ->
  exists o' outs, play reals cs o = Some (o', outs) /\ length outs = length cs /\ Forall (in_range_R o) outs.
Proof.
  intros Hw Hb Hc. destruct (play_ok reals cs o Rlt_irrefl_b Hw Hc) as (o' & outs & E & L & F).
  - intros i lo hi El Eh. cbn. apply bool_decide_false. destruct Hw as (L1 & L2 & L3 & _). specialize (Hb i). rewrite (el_lookup _ _ _ El), (el_lookup _ _ _ Eh) in Hb.
    apply lookup_lt_Some in El. specialize (Hb ltac:(lia)). lra.
  - exists o', outs. split; [done|]. split; [done|]. eapply list.Forall_impl; [exact F|]. cbn beta. intros a [La Ha] i Hi. destruct Hw as (L1 & L2 & L3 & _).
    destruct (lookup_lt_is_Some_2 a i) as [x Ex]; [lia|]. destruct (lookup_lt_is_Some_2 (ou_min o) i) as [lo El]; [lia|]. destruct (lookup_lt_is_Some_2 (ou_max o) i) as [hi Eh]; [lia|].
    rewrite (el_lookup _ _ _ Ex), (el_lookup _ _ _ El), (el_lookup _ _ _ Eh). destruct (Ha i x lo hi Hi Ex El Eh) as [H1 H2]. cbn in H1, H2.
    apply bool_decide_eq_false in H1, H2. lra.
Qed.
(** what a call does exactly, over exact reals: the noise moves by theta (mu - noise) + sigma xi, and each action is the
    action plus the new noise, or the bound it exceeds; actions beyond the dimension are not touched *)
Theorem C40_exact xi t (o : ou R) a : well_formed o -> bounds_R o -> ou_dim o <= length a ->
  exists o' a', get_action reals xi t o a = Some (o', a') /\ length a' = length a /\ (forall i, ou_dim o <= i -> a' !! i = a !! i) /\
    forall i, i < ou_dim o ->
      el (ou_state o') i = (el (ou_state o) i + (ou_theta o * (ou_mu o - el (ou_state o) i) + ou_sigma o * xi i))%R /\
      el a' i = Rmax (el (ou_min o) i) (Rmin (el (ou_max o) i) (el a i + el (ou_state o') i)).
Proof.
  intros Hw Hb Ha. destruct (get_action_eq reals xi t o a Hw Ha) as (sg & a' & _ & E & La & Va & Vb). eexists _, a'. split; [exact E|]. split; [done|]. split; [done|].
  intros i Hi. destruct Hw as (L1 & L2 & L3 & _). destruct (lookup_lt_is_Some_2 a i) as [x Ex]; [lia|]. destruct (lookup_lt_is_Some_2 (ou_state o) i) as [s Es]; [lia|].
  destruct (lookup_lt_is_Some_2 (ou_min o) i) as [lo El]; [lia|]. destruct (lookup_lt_is_Some_2 (ou_max o) i) as [hi Eh]; [lia|].
  specialize (Hb i Hi). rewrite (el_lookup _ _ _ El), (el_lookup _ _ _ Eh) in Hb.
  assert (Es' : el (imap (step_state reals xi o) (ou_state o)) i = step_state reals xi o i s). { apply el_lookup. rewrite list_lookup_imap, Es. done. }
  cbn [ou_state with_sigma with_state]. rewrite Es', (el_lookup _ _ _ Es), (el_lookup _ _ _ Ex), (el_lookup _ _ _ El), (el_lookup _ _ _ Eh). split; [done|].
  rewrite (el_lookup _ _ _ (Va i x s hi lo Hi Ex Es Eh El)). generalize (step_state reals xi o i s). intros v. unfold clamp. cbn.
  destruct (bool_decide (hi < x + v)%R) eqn:B; [apply bool_decide_eq_true in B|apply bool_decide_eq_false in B].
  - rewrite Rmin_left, Rmax_right by lra. rewrite bool_decide_false by lra. done.
  - rewrite Rmin_right by lra. destruct (bool_decide (x + v < lo)%R) eqn:B2; [apply bool_decide_eq_true in B2|apply bool_decide_eq_false in B2].
    + by rewrite Rmax_left by lra.
    + by rewrite Rmax_right by lra.
Qed.
(** the same in binary32 arithmetic: every action is in range unless it is NaN *)
Theorem C40_floats_partial cs (o : ou spec_float) : well_formed o -> bounds_F o -> Forall (enough o) cs ->
  exists o' outs, play float32 cs o = Some (o', outs) /\ length outs = length cs /\ Forall (in_range_F o) outs.
Proof.
  intros Hw Hb Hc. destruct (play_ok float32 cs o SFltb_irrefl Hw Hc) as (o' & outs & E & L & F).
  - intros i lo hi El Eh. cbn. destruct (Hb i lo hi El Eh) as (N1 & N2 & Hle). destruct (SFltb hi lo) eqn:Elt; [exfalso|done]. by apply (SFltb_leb hi lo).
  - exists o', outs. split; [done|]. split; [done|]. eapply list.Forall_impl; [exact F|]. cbn beta. intros a [La Ha] i x lo hi Hi Ex El Eh Hx.
    destruct (Ha i x lo hi Hi Ex El Eh) as [H1 H2]. destruct (Hb i lo hi El Eh) as (N1 & N2 & _). split; by apply SFcompare_total.
Qed.
(** a finite action comes out a number in range unless the noise itself has become NaN *)
Theorem C40_floats_call_partial xi t (o : ou spec_float) a : well_formed o -> bounds_F o -> ou_dim o <= length a ->
  exists o' a', get_action float32 xi t o a = Some (o', a') /\
    forall i x s lo hi, i < ou_dim o -> a !! i = Some x -> finite x -> ou_state o' !! i = Some s -> number s -> ou_min o !! i = Some lo -> ou_max o !! i = Some hi ->
      exists y, a' !! i = Some y /\ SFleb lo y = true /\ SFleb y hi = true.
Proof.
  intros Hw Hb Ha. destruct (get_action_eq float32 xi t o a Hw Ha) as (sg & a' & _ & E & _ & Va & _). eexists _, a'. split; [exact E|].
  intros i x s' lo hi Hi Ex Hx Es' Hs El Eh. cbn in Es'. rewrite list_lookup_imap in Es'. destruct (ou_state o !! i) as [s|] eqn:Es; [|done]. cbn in Es'. injection Es' as <-.
  eexists. split; [by apply Va|]. pose proof (add_number x _ Hx Hs) as Hn. destruct (Hb i lo hi El Eh) as (N1 & N2 & Hle).
  assert (Hlt : SFltb hi lo = false).
  { destruct (SFltb hi lo) eqn:Elt; [exfalso|done]. by apply (SFltb_leb hi lo). }
  destruct (clamp_between float32 hi lo (SFadd 24 128 x (step_state float32 xi o i s)) SFltb_irrefl Hlt) as [H1 H2].
  assert (Hc : number (clamp float32 hi lo (SFadd 24 128 x (step_state float32 xi o i s)))). { unfold clamp. cbv zeta. repeat match goal with |- context [if ?b then _ else _] => destruct b end; done. }
  split; by apply SFcompare_total.
Qed.
(** NaN is not caught: an action that is NaN before the call is NaN after it, whatever the noise and the bounds *)
Theorem C40_nan_refuted xi t (o : ou spec_float) a i : well_formed o -> ou_dim o <= length a -> i < ou_dim o -> a !! i = Some S754_nan ->
  exists o' a', get_action float32 xi t o a = Some (o', a') /\ a' !! i = Some S754_nan.
Proof.
  intros Hw Ha Hi Ex. destruct (get_action_eq float32 xi t o a Hw Ha) as (sg & a' & _ & E & _ & Va & _). eexists _, a'. split; [done|].
  destruct Hw as (L1 & L2 & L3 & _). destruct (lookup_lt_is_Some_2 (ou_state o) i) as [s Es]; [lia|]. destruct (lookup_lt_is_Some_2 (ou_min o) i) as [lo El]; [lia|]. destruct (lookup_lt_is_Some_2 (ou_max o) i) as [hi Eh]; [lia|].
  rewrite (Va i _ s hi lo Hi Ex Es Eh El). f_equal. unfold clamp. cbn. unfold SFltb. replace (SFcompare hi S754_nan) with (@None comparison) by (by destruct hi). done.
Qed.
(** the noise state stays bounded: for noises from any values of rand() (in 0..M, M = RAND_MAX), |state - mu| never exceeds
    K if it did not at the start and K >= S sqrt(2 ln (M+1)) / theta, S bounding the sigmas *)
Theorem C40_state_bounded cs (o : ou R) M K S : well_formed o -> bounds_R o -> Forall (enough o) cs -> (0 < ou_theta o <= 1)%R ->
  (Rabs (ou_sigma o) <= S)%R -> (Rabs (ou_max_sigma o) <= S)%R -> (Rabs (ou_min_sigma o) <= S)%R ->
  Forall (fun c => forall i, i < ou_dim o -> exists r1 r2, (0 <= r1 <= M)%Z /\ (0 <= r2 <= M)%Z /\ c_xi c i = random_normal M r1 r2) cs ->
  (S * R_sqrt.sqrt (2 * ln (IZR M + 1)) <= ou_theta o * K)%R ->
  (forall i, i < ou_dim o -> (Rabs (el (ou_state o) i - ou_mu o) <= K)%R) ->
  exists o' outs, play reals cs o = Some (o', outs) /\ forall i, i < ou_dim o -> (Rabs (el (ou_state o') i - ou_mu o) <= K)%R.
Proof.
  intros Hw Hb Hc Ht S1 S2 S3 Hx HK Hs. destruct (C40_reals cs o Hw Hb Hc) as (o' & outs & E & _). exists o', outs. split; [done|].
  eapply (play_state cs o o' outs K _ S); try done. eapply list.Forall_impl; [exact Hx|]. cbn beta. intros c Hci i Hi. destruct (Hci i Hi) as (r1 & r2 & H1 & _ & ->). by apply normal_bound.
Qed.

(** C56.  At and after decay_period the scale is min_sigma, at time 0 it is max_sigma *)
Theorem C56_ends_partial xi t (o : ou R) a : well_formed o -> ou_dim o <= length a ->
  exists o' a', get_action reals xi t o a = Some (o', a') /\
    (t = 0%N -> ou_sigma o' = ou_max_sigma o) /\ ((ou_decay o <= t)%N -> ou_sigma o' = ou_min_sigma o).
Proof.
  intros Hw Ha. destruct (get_action_eq reals xi t o a Hw Ha) as (sg & a' & Es & E & _). eexists _, a'. split; [exact E|].
  destruct Hw as (_ & _ & _ & Hd). rewrite next_sigma_eq in Es by done. injection Es as <-. cbn. split.
  - intros ->. by rewrite (proj2 (N.ltb_lt 0 _)) by lia.
  - intros H. by rewrite (proj2 (N.ltb_ge t _)) by lia.
Qed.
(** in between there is no decay at all *)
Theorem C56_decay_refuted xi t (o : ou R) a : well_formed o -> ou_dim o <= length a -> (t < ou_decay o)%N ->
  exists o' a', get_action reals xi t o a = Some (o', a') /\ ou_sigma o' = ou_max_sigma o.
Proof.
  intros Hw Ha Ht. destruct (get_action_eq reals xi t o a Hw Ha) as (sg & a' & Es & E & _). eexists _, a'. split; [exact E|].
  destruct Hw as (_ & _ & _ & Hd). rewrite next_sigma_eq in Es by done. injection Es as <-. cbn. by rewrite (proj2 (N.ltb_lt t _)).
Qed.
(** reset does not reset the noise: the state is what it was, and every later call returns the actions it would have returned *)
Lemma play_space cs (o : ou R) sp : (r ← play reals cs (with_space o sp); Some (r.2, ou_state r.1)) = (r ← play reals cs o; Some (r.2, ou_state r.1)).
Proof.
  revert o. induction cs as [|c cs IH]; intros o; [done|]. cbn [play].
  assert (E : get_action reals (c_xi c) (c_t c) (with_space o sp) (c_actions c) = r ← get_action reals (c_xi c) (c_t c) o (c_actions c); Some (with_space (r.1) sp, r.2)).
  { unfold get_action, evolve_state, next_sigma, with_space, with_state, with_sigma. cbn.
    destruct (for_loop (ou_dim o) 0 _ (ou_state o)) as [st|]; [|done]. cbn. case_decide; [done|]. cbn. by destruct (for_loop _ _ _ (c_actions c)). }
  rewrite E. destruct (get_action reals (c_xi c) (c_t c) o (c_actions c)) as [[o1 a1]|]; [|done]. cbn [mbind option_bind fst snd].
  specialize (IH o1). destruct (play reals cs (with_space o1 sp)) as [[o2 outs2]|], (play reals cs o1) as [[o3 outs3]|]; cbn in IH |- *; congruence.
Qed.
Theorem C56_reset_refuted (o : ou R) : length (ou_space o) = ou_dim o -> exists o', reset_ou o = Some o' /\ ou_state o' = ou_state o /\
  forall cs, (r ← play reals cs o'; Some r.2) = (r ← play reals cs o; Some r.2).
Proof.
  intros Hl. unfold reset_ou. destruct (for_loop_inv (fun _ sp => length sp = ou_dim o) (fun i sp => wr sp i (ou_mu o)) (ou_dim o) 0 (ou_space o)) as (sp & E & _).
  - done.
  - intros i s Hi Hs. rewrite wr_Some by lia. eexists. split; [done|]. by rewrite insert_length.
  - rewrite E. cbn. eexists. split; [done|]. split; [done|]. intros cs. pose proof (play_space cs o sp) as H.
    destruct (play reals cs (with_space o sp)) as [[o2 outs2]|], (play reals cs o) as [[o3 outs3]|]; cbn in *; congruence.
Qed.

(** ** Instances *)
Definition demo_ou : ou R := init_ou reals (15/100)%R (3/10)%R 2 [1; 2]%R [-1; 0]%R.
Example C40_instance : well_formed demo_ou /\ bounds_R demo_ou /\ Forall (enough demo_ou) [Call 0 (fun _ => 1%R) [5; -5]%R; Call 3 (fun _ => (-1)%R) [0; 0]%R].
Proof. split; [done|]. split; [|repeat constructor; cbn; lia]. intros i Hi. cbn in Hi |- *. destruct i as [|[|i]]; cbn; [lra|lra|lia]. Qed.
(** the defaults of init_oustrategy with glibc's RAND_MAX: the noise stays within 14 *)
Example C40_state_instance : (3/10 * R_sqrt.sqrt (2 * ln (IZR 2147483647 + 1)) <= 15/100 * 14)%R.
Proof.
  replace (IZR 2147483647 + 1)%R with (2 ^ 31)%R by (cbn; lra). rewrite ln_pow by lra. replace (INR 31) with 31%R by (cbn; lra).
  assert (Hl : (ln 2 <= 79/100)%R).
  { rewrite <- (ln_exp (79/100)). left. apply ln_increasing; [lra|]. pose proof (exp_ineq1 (79/800) ltac:(lra)) as H1.
    replace (79/100)%R with ((79/800 + 79/800 + (79/800 + 79/800)) + (79/800 + 79/800 + (79/800 + 79/800)))%R by lra. rewrite !exp_plus.
    set (e := exp (79/800)) in *. assert (H2 : (1.207 < e * e)%R) by nra. assert (H4 : (1.456 < (e * e) * (e * e))%R) by nra. nra. }
  assert (Hs : (R_sqrt.sqrt (2 * (31 * ln 2)) <= 7)%R). { rewrite <- (sqrt_square 7) by lra. apply sqrt_le_1_alt. lra. }
  lra.
Qed.
(** binary32: bounds [-1,1], one action *)
Definition one32 : spec_float := o_nat float32 1.
Definition demo_ou32 : ou spec_float := init_ou float32 one32 one32 1 [one32] [SFopp one32].
Example C40_floats_instance : well_formed demo_ou32 /\ bounds_F demo_ou32.
Proof. split; [done|]. intros [|i] lo hi El Eh; [|done]. cbn in El, Eh. injection El as <-. injection Eh as <-. done. Qed.
Example C56_instance : (exists o' a', get_action reals (fun _ => 0%R) 50000 demo_ou [0; 0]%R = Some (o', a') /\ ou_sigma o' = ou_max_sigma demo_ou) /\ length (ou_space demo_ou) = ou_dim demo_ou.
Proof. split; [|done]. apply C56_decay_refuted; [done|done|done]. Qed.

Print Assumptions C40_reals.
Print Assumptions C40_exact.
Print Assumptions C40_floats_partial.
Print Assumptions C40_floats_call_partial.
Print Assumptions C40_nan_refuted.
Print Assumptions C40_state_bounded.
Print Assumptions C56_ends_partial.
Print Assumptions C56_decay_refuted.
Print Assumptions C56_reset_refuted.
