(** C59: the generations of a NEAT evolution.  An evolution is a call of init followed by any number
    of rounds, in each of which the program gives a fitness to every genome and calls
    neat_generation_run ([Gen_Spec.evolution]); [evolved] are the states between two rounds. *)
From Coq Require Import Reals Lra.
From Verif Require Import Base BaseLemmas Shuffle_Model Shuffle_Spec Sort_Model Neat_Model Neat_Spec Neat_Props.
From Verif Require Import Species_Model Species_Spec Species2_Proofs Gen_Model Gen_Spec Gen_Proofs Gen2_Proofs Gen3_Proofs Gen4_Proofs.
Open Scope nat_scope.

(** Whatever the fitnesses and the random numbers: no round has undefined behaviour, in particular
    none writes outside the arrays of genomes; there is always a genome and all the genomes are well
    formed. *)
Theorem evolutions_run c input output initial start runs :
  valid c input output initial -> possible_init start -> Forall (fun r => possible_gen (snd r)) runs ->
  exists st, evolution c input output initial start runs = Some st /\
    consistent input output (n_globals st) /\
    Forall (fun x => well_formed input output (n_globals st) (i_genome x)) (n_gg st) /\
    1 <= length (n_gg st) <= capacity c.
Proof.
  intros Hv Hi Hr. unfold evolution. destruct (init_ok c input output initial Hv start Hi) as (st0 & -> & H0 & _).
  cbn [mbind option_bind]. destruct (generations_ok c input output initial Hv runs st0 Hr H0) as (st & E & [A B C D _ _ _]).
  exists st. split; [done|]. split; [done|]. split; [|done]. eapply list.Forall_impl; [exact B|]. by intros x [H _].
Qed.

(** init makes the number of genomes that was asked for. *)
Theorem init_makes_the_population c input output initial start :
  valid c input output initial -> possible_init start ->
  exists st, init c start input output initial = Some st /\ length (n_gg st) = initial.
Proof.
  intros Hv Hi. destruct (init_ok c input output initial Hv start Hi) as (st0 & E & _ & L & _). by exists st0.
Qed.

(** The fittest genome is never lost: the last genome of the next population has its nodes and
    connections. *)
Theorem champion_survives c input output initial st f lk st' :
  valid c input output initial -> evolved c input output initial st -> possible_gen lk ->
  neat_generation_run c lk false (evaluate f st) = Some st' ->
  exists best x, is_fittest (n_gg (evaluate f st)) best /\ list.last (n_gg st') = Some x /\
    same_genome (i_genome best) (i_genome x).
Proof.
  intros Hv He Hlk E. pose proof (evaluate_steady c input output f st (evolved_ok c input output initial Hv st He)) as Hs.
  destruct (run_ok c input output initial Hv lk _ Hlk Hs) as (l & st1 & best & before & x & E1 & _ & _ & Hb & Eg & S & _).
  rewrite E in E1. apply (inj Some) in E1. subst st1. exists best, x. split; [done|]. split; [|done]. rewrite Eg. apply last_snoc.
Qed.

(** The genomes of the next population have fitness 0 and their nodes in order. *)
Theorem next_population_is_fresh c input output initial st f lk st' :
  valid c input output initial -> evolved c input output initial st -> possible_gen lk ->
  neat_generation_run c lk false (evaluate f st) = Some st' ->
  forall x, x ∈ n_gg st' -> i_fitness x = 0%R /\ increasing (node_numbers (i_genome x)).
Proof.
  intros Hv He Hlk E x Hx. pose proof (evaluate_steady c input output f st (evolved_ok c input output initial Hv st He)) as Hs.
  destruct (run_ok c input output initial Hv lk _ Hlk Hs) as (l & st1 & best & before & y & E1 & _ & _ & _ & _ & _ & F & _).
  rewrite E in E1. apply (inj Some) in E1. subst st1. rewrite list.Forall_forall in F. by apply F.
Qed.

(** Every species has between [children] and 50 * [children] children, and at most two genomes by
    its champion; then there is the champion of all. *)
Theorem population_size c input output initial st f lk st' :
  valid c input output initial -> evolved c input output initial st -> possible_gen lk ->
  neat_generation_run c lk false (evaluate f st) = Some st' ->
  1 <= length (n_species st') <= 2 * max_pop c /\
  length (n_species st') * children c + 1 <= length (n_gg st') <= length (n_species st') * (50 * children c + 2) + 1.
Proof.
  intros Hv He Hlk E. pose proof (evaluate_steady c input output f st (evolved_ok c input output initial Hv st He)) as Hs.
  destruct (run_ok c input output initial Hv lk _ Hlk Hs) as (l & st1 & best & before & y & E1 & _ & _ & _ & Eg & _ & _ & L1 & L2 & _ & H).
  rewrite E in E1. apply (inj Some) in E1. subst st1. destruct H as (gs & gs' & copies & rest & P1 & Lg & P2 & F2 & P3 & _ & _ & _ & El).
  rewrite Eg, app_length. cbn [length]. split; [|lia]. split; [|done]. rewrite El.
  assert (1 <= length (n_gg (evaluate f st))) by apply Hs.
  assert (1 <= length copies).
  { rewrite <- (Forall2_length _ _ _ F2), (Permutation_length P2). unfold rescale. rewrite fmap_length, Lg. destruct Hv. lia. }
  destruct l; [|cbn; lia]. apply Permutation_length in P3. rewrite app_length in P3. cbn in P3. lia.
Qed.

(** Species.  In every round each of the (at most max_pop) genomes that are kept is put, with its
    rescaled fitness, into exactly one species [l]: the first one whose representative is nearer
    than the threshold, or one that it founds. *)
Theorem species_of_a_round c input output initial st f lk st' :
  valid c input output initial -> evolved c input output initial st -> possible_gen lk ->
  neat_generation_run c lk false (evaluate f st) = Some st' ->
  exists kept lost worst best kept' copies l,
    kept ++ lost ≡ₚ n_gg (evaluate f st) /\ length kept = Nat.min (max_pop c) (length (n_gg st)) /\
    is_fittest (n_gg (evaluate f st)) best /\ kept' ≡ₚ rescale worst (i_fitness best) kept /\
    speciate c lk (gl_conns (n_globals st)) (rescale worst (i_fitness best) kept) (n_species st) = Some l /\
    Forall2 twin kept' copies /\ (members l ≡ₚ members (n_species st) ++ copies) /\
    well_placed (threshold c) l /\ (forall s, s ∈ l -> s_members s <> []) /\ length (n_species st') = length l.
Proof.
  intros Hv He Hlk E. pose proof (evaluate_steady c input output f st (evolved_ok c input output initial Hv st He)) as Hs.
  destruct (run_ok c input output initial Hv lk _ Hlk Hs) as (l & st1 & best & before & y & E1 & _ & _ & Hb & _ & _ & _ & _ & _ & _ & H).
  rewrite E in E1. apply (inj Some) in E1. subst st1. destruct H as (gs & gs' & copies & rest & P1 & Lg & P2 & F2 & P3 & W & N & S & El).
  cbn in Lg. rewrite imap_length in Lg.
  exists gs, rest, (i_fitness (nth 0 (n_gg (evaluate f st)) best)), best, gs', copies, l. done.
Qed.

(** After a round the species have no other genomes, so in the next round these are exactly the
    genomes that are kept. *)
Theorem species_start_empty c input output initial st f lk st' :
  valid c input output initial -> evolved c input output initial st -> possible_gen lk ->
  neat_generation_run c lk false (evaluate f st) = Some st' -> members (n_species st') = [].
Proof.
  intros Hv He Hlk E. pose proof (evaluate_steady c input output f st (evolved_ok c input output initial Hv st He)) as Hs.
  destruct (run_ok c input output initial Hv lk _ Hlk Hs) as (l & st1 & best & before & y & E1 & _ & _ & Hb & _ & _ & _ & _ & _ & M & _).
  rewrite E in E1. apply (inj Some) in E1. by subst st1.
Qed.

(** The representatives of two species are never nearer than the threshold. *)
Theorem representatives_are_apart c input output initial st i j s s' :
  valid c input output initial -> evolved c input output initial st ->
  i < j -> n_species st !! i = Some s -> n_species st !! j = Some s' ->
  exists d, compute_species_distance (i_genome (s_rep s)) (i_genome (s_rep s')) (gl_conns (n_globals st)) = Some d /\
    (threshold c <= d)%R.
Proof.
  intros Hv He Hij Hi Hj. destruct (evolved_ok c input output initial Hv st He) as [A _ _ _ S _ P].
  destruct (Forall_lookup_1 _ _ _ _ S Hi) as [R1 _]. destruct (Forall_lookup_1 _ _ _ _ S Hj) as [R2 _].
  eexists. split; [by apply (distance_fine input output)|]. destruct (P _ _ Hj) as [Ha _]. by apply (Ha i s).
Qed.

(** ** What does not hold *)

(** Species that stop improving should be eliminated.  But the counter that is tested is the one of
    the representative's genome, which is 0 in every evolution, and the counters of the species,
    which do grow, have no effect on the next population. *)
Theorem stagnant_species_are_eliminated_refuted c input output initial st :
  valid c input output initial -> evolved c input output initial st ->
  (forall s, s ∈ n_species st -> i_rip (s_rep s) = 0%Z /\ (i_rip (s_rep s) < limiting c)%Z) /\
  forall lk l l1 r G gg,
    Forall2 (fun s s1 => s_rep s1 = s_rep s /\ s_members s1 = s_members s /\ s_age s1 = s_age s /\ s_best s1 = s_best s) l l1 ->
    reproduce c lk (n_globals st) l = Some (r, G, gg) -> exists r1, reproduce c lk (n_globals st) l1 = Some (r1, G, gg).
Proof.
  intros Hv He. split.
  - intros s Hs. destruct (evolved_ok c input output initial Hv st He) as [_ _ _ _ S _ _]. rewrite list.Forall_forall in S.
    destruct (S s Hs) as [[_ Hr] _]. destruct (v_limiting _ _ _ _ Hv). rewrite Hr. lia.
  - intros lk l l1 r G gg Hl E. destruct (reproduce_like c lk _ l l1 r G gg Hl E) as (r1 & E1 & _). by exists r1.
Qed.

(** The fitness is rescaled before the species are compared, to [0,1] it seems.  It is in [0,1]
    exactly when the first genome of the population is (one of) the least fit, because the variable
    for the worst fitness is never updated. *)
Theorem rescaled_fitness_in_0_1_refuted gs first best :
  first ∈ gs -> is_fittest gs best ->
  Forall (fun x => 0 <= i_fitness x <= 1)%R (rescale (i_fitness first) (i_fitness best) gs) <->
  forall x, x ∈ gs -> (i_fitness first <= i_fitness x)%R.
Proof. apply rescale_iff. Qed.

(** A population that is too large should be cut down to the fittest max_pop genomes.  But fitnesses
    are compared after truncation to int: when they are all in [0,1) the last max_pop genomes are
    kept, whatever their fitness ... *)
Theorem fractions_are_ignored c st f :
  (forall i, 0 <= f i < 1)%R -> max_pop c < length (n_gg st) ->
  cut c (n_gg (evaluate f st)) = Some (take (max_pop c) (rev (n_gg (evaluate f st)))).
Proof.
  intros Hf Hl. unfold cut. cbn. rewrite imap_length, decide_True by done. rewrite sort_fractions; [done|].
  apply list.Forall_forall. intros x Hx. apply elem_of_lookup_imap in Hx as (i & y & -> & Hy). cbn. apply Hf.
Qed.

(** ... so the least fit can be kept and all the others lost. *)
Theorem cut_keeps_the_fittest_refuted c st f :
  (forall i, 0 <= f i < 1)%R -> (forall i j : nat, i < j -> (f j < f i)%R) -> max_pop c < length (n_gg st) ->
  exists kept lost, cut c (n_gg (evaluate f st)) = Some kept /\ kept ++ lost ≡ₚ n_gg (evaluate f st) /\
    length kept = max_pop c /\ forall x y, x ∈ kept -> y ∈ lost -> (i_fitness x < i_fitness y)%R.
Proof.
  intros Hf Hd Hl. rewrite fractions_are_ignored by done. eexists _, (drop (max_pop c) (rev (n_gg (evaluate f st)))). split; [done|].
  rewrite take_drop. split; [symmetry; apply Permutation_rev|].
  assert (Ln : length (n_gg (evaluate f st)) = length (n_gg st)) by (cbn; apply imap_length).
  split; [rewrite take_length, rev_length; lia|].
  assert (Hat : forall i x, rev (n_gg (evaluate f st)) !! i = Some x -> i < length (n_gg st) /\ i_fitness x = f (length (n_gg st) - 1 - i)).
  { intros i x Hi. pose proof (lookup_lt_Some _ _ _ Hi) as Hlt. rewrite rev_length, Ln in Hlt. split; [done|].
    rewrite <- (rev_involutive (n_gg (evaluate f st))) in Hi. rewrite rev_involutive in Hi. fold (reverse (n_gg (evaluate f st))) in Hi.
    rewrite rev_alt in Hi. change (rev_append (n_gg (evaluate f st)) []) with (reverse (n_gg (evaluate f st))) in Hi.
    rewrite reverse_lookup in Hi by (rewrite Ln; lia). rewrite Ln in Hi. cbn in Hi. rewrite list_lookup_imap in Hi.
    destruct (n_gg st !! (length (n_gg st) - S i)) as [y|]; [|done]. cbn in Hi. apply (inj Some) in Hi. subst x. cbn. f_equal. lia. }
  intros x y Hx Hy. apply elem_of_list_lookup in Hx as [i Hi]. apply elem_of_list_lookup in Hy as [j Hj].
  assert (Hi' : i < max_pop c) by (apply lookup_lt_Some in Hi; rewrite take_length in Hi; lia).
  rewrite lookup_take in Hi by done. rewrite lookup_drop in Hj. destruct (Hat _ _ Hi) as [Li Ei]. destruct (Hat _ _ Hj) as [Lj Ej].
  rewrite Ei, Ej. apply Hd. lia.
Qed.

(** ** A concrete evolution *)

Definition demo_settings : settings := mkSettings 3 2 3 (1 / 2) 5 2 true (3 / 10).
Example demo_valid : valid demo_settings 2 1 2.
Proof. constructor; cbn; (lia || lra). Qed.

Definition demo_child : child_luck :=
  mkLuck first_ (fun i => i =? 0) (fun i w => (w + INR i)%R) true false last_ first_ 2 last_ true first_.
Definition demo_luck : gen_luck :=
  mkGenLuck 9 first_ (fun _ => demo_child) (fun _ => true) last_ (fun i => i =? 0) (fun i j k => j =? k).
Definition demo_start : init_luck :=
  mkInitLuck 9 (fun i j => if i =? 0 then first_ else last_) (fun i j => first_) (fun i j => INR (i + j)) (fun i k w => (w + INR k)%R).

Example demo_possible_gen : possible_gen demo_luck.
Proof.
  assert (rand_ok 9 first_) by (intros k; unfold first_; lia). assert (rand_ok 9 last_) by (intros k; unfold last_; lia).
  split; [done|]. split; [done|]. intros n. by repeat split.
Qed.
Example demo_possible_init : possible_init demo_start.
Proof.
  assert (rand_ok 9 first_) by (intros k; unfold first_; lia). assert (rand_ok 9 last_) by (intros k; unfold last_; lia).
  intros i j. cbn. by destruct (i =? 0).
Qed.

(** After any positive number of rounds with these settings there are more genomes than max_pop, so
    the next round cuts the population. *)
Example demo_is_cut f runs : Forall (fun r => possible_gen (snd r)) runs ->
  exists st, evolved demo_settings 2 1 2 st /\
    evolution demo_settings 2 1 2 demo_start (runs ++ [(f, demo_luck)]) = Some st /\ max_pop demo_settings < length (n_gg st).
Proof.
  intros Hr. destruct (evolutions_run demo_settings 2 1 2 demo_start runs demo_valid demo_possible_init Hr) as (st & E & _).
  assert (He : evolved demo_settings 2 1 2 st) by (exists demo_start, runs; split; [apply demo_possible_init|split; [exact Hr|exact E]]).
  assert (Hr' : Forall (fun r => possible_gen (snd r)) (runs ++ [(f, demo_luck)])).
  { apply Forall_app. split; [exact Hr|]. apply list.Forall_singleton. apply demo_possible_gen. }
  destruct (evolutions_run demo_settings 2 1 2 demo_start _ demo_valid demo_possible_init Hr') as (st' & E' & _).
  exists st'. split; [exists demo_start, (runs ++ [(f, demo_luck)]); split; [apply demo_possible_init|split; [exact Hr'|exact E']]|]. split; [exact E'|].
  assert (Ee : neat_generation_run demo_settings demo_luck false (evaluate f st) = Some st').
  { unfold evolution in *. destruct (init _ _ _ _ _) as [s0|]; cbn [mbind option_bind] in *; [|discriminate].
    clear -E E'. revert s0 E E'. induction runs as [|[f0 k0] runs IH]; intros s0 E E'.
    - cbn [app generations] in *. apply (inj Some) in E. subst s0. destruct (neat_generation_run _ _ _ _); cbn [mbind option_bind] in *; [exact E'|discriminate].
    - cbn [app generations] in *. destruct (neat_generation_run demo_settings k0 false (evaluate f0 s0)) as [s1|]; cbn [mbind option_bind] in *; [|discriminate].
      apply (IH s1); assumption. }
  destruct (population_size _ _ _ _ _ _ _ _ demo_valid He demo_possible_gen Ee) as [[H1 _] [H2 _]].
  change (children demo_settings) with 3 in H2. change (max_pop demo_settings) with 2. lia.
Qed.

Print Assumptions evolutions_run.
Print Assumptions init_makes_the_population.
Print Assumptions champion_survives.
Print Assumptions next_population_is_fresh.
Print Assumptions population_size.
Print Assumptions species_of_a_round.
Print Assumptions species_start_empty.
Print Assumptions representatives_are_apart.
Print Assumptions stagnant_species_are_eliminated_refuted.
Print Assumptions rescaled_fitness_in_0_1_refuted.
Print Assumptions fractions_are_ignored.
Print Assumptions cut_keeps_the_fittest_refuted.
