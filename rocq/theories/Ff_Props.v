(** C63: evaluating a NEAT genome. *)
From Coq Require Import Reals Lra.
From Verif Require Import Base BaseLemmas Shuffle_Spec Neat_Model Neat_Spec Neat4_Proofs Neat6_Proofs Mcts_Model Ff_Model Ff_Proofs Ff2_Proofs Ff4_Proofs Ff5_Proofs Ff7_Proofs Ff8_Proofs Ff_Spec Ff9_Proofs.
Open Scope nat_scope.

(** A genome of any history of calls, with or without loops, is evaluated without undefined behaviour, and the evaluation ends: from some fuel on the
    result is always the same list, one activation for each output.  (Any arithmetic, any activation.) *)
Theorem evaluation_ends {F} (O : num F) (sig : F -> F) (one : F) ip op G l m g inputs :
  1 <= ip -> 1 <= op -> reachable one ip op (G, l) -> l !! m = Some g -> ip <= length inputs ->
  exists fuel0 out, length out = op /\ (forall y, y ∈ out -> exists x, y = sig x) /\ forall fuel, fuel0 <= fuel -> feed_forward O sig fuel g inputs (gl_nodes G) = Some out.
Proof.
  intros Hi Ho Hr Hm Hl. destruct (reachable_genome one _ _ _ _ _ _ Hi Ho Hr Hm) as (HG & Hw & _). destruct (copy_ok _ _ _ _ Hw) as (g' & Ec & Hw' & _).
  pose proof (wf_okg _ _ _ _ _ HG Hw' (le_n _)) as Hg.
  destruct (feed_forward_total O sig (gl_nodes G) g g' inputs (enough (gl_nodes G) g') Ec Hg ltac:(rewrite (wf_input _ _ _ _ Hw'); done) (le_n _)) as (out & E & Hlen).
  exists (enough (gl_nodes G) g'), out. split; [by rewrite Hlen, (wf_output _ _ _ _ Hw')|]. split; [|intros fuel Hf; by eapply feed_forward_more].
  intros y Hy. unfold feed_forward in E. do 2 apply bind_Some in E as (? & _ & E). apply bind_Some in E as ([[? ?] ?] & _ & E). do 6 apply bind_Some in E as (? & _ & E). apply mapM_Some in E. apply elem_of_list_lookup in Hy as [i Hy].
  destruct (Forall2_lookup_r _ _ _ _ _ E Hy) as (j & _ & Ej). apply bind_Some in Ej as (u & _ & Ej). injection Ej as <-. eauto.
Qed.

(** Over the reals, for every activation: when no hidden node has two enabled outgoing connections, and none that leads to an output is without enabled
    incoming ones, the outputs are the activation of the value, plus one, that the network equations give the outputs. *)
Theorem tree_shaped_genomes_compute_their_network (sig : R -> R) (one : R) ip op G l m g inputs val :
  1 <= ip -> 1 <= op -> reachable one ip op (G, l) -> l !! m = Some g -> ip <= length inputs -> tree_shaped g -> no_dead_start g -> solves g sig inputs val ->
  exists fuel0, forall fuel, fuel0 <= fuel -> exists out, feed_forward real_num sig fuel g inputs (gl_nodes G) = Some out /\
    length out = op /\ forall i, i < op -> out !! i = Some (sig (val (ip + 1 + i)%nat + 1)%R).
Proof.
  intros Hi Ho Hr Hm Hl Ht Hf Hs. destruct (reachable_genome one _ _ _ _ _ _ Hi Ho Hr Hm) as (HG & Hw & _). destruct (copy_ok _ _ _ _ Hw) as (g' & Ec & Hw' & _ & Hh).
  assert (Ei : g_input g' = g_input g) by (by rewrite (wf_input _ _ _ _ Hw'), (wf_input _ _ _ _ Hw)). assert (Eo : g_output g' = g_output g) by (by rewrite (wf_output _ _ _ _ Hw'), (wf_output _ _ _ _ Hw)).
  apply (tree_same g g' Ei Hh) in Ht. apply (fed_same g g' Ei Eo Hh) in Hf. apply (solves_same g g' Ei Eo Hh) in Hs.
  pose proof (wf_okg _ _ _ _ _ HG Hw' (le_n _)) as Hg. destruct (solves_index _ _ _ _ HG Hw' _ _ _ Hs) as [H1 H2].
  exists (S (enough (gl_nodes G) g')). intros fuel Hfuel.
  destruct (feed_forward_total real_num sig (gl_nodes G) g g' inputs fuel Ec Hg ltac:(rewrite (wf_input _ _ _ _ Hw'); done) ltac:(lia)) as (out & E & Hlen). exists out. split; [done|].
  split; [by rewrite Hlen, (wf_output _ _ _ _ Hw')|]. intros i Hio.
  pose proof (forest_value sig (gl_nodes G) g' Hg (forest_of _ _ _ _ HG Hw' Ht) (fed_of _ _ _ _ HG Hw' Hf) (fun v => val (name g' v)) H2 g inputs fuel out Ec ltac:(unfold enough in Hfuel; lia) H1 E) as ->.
  pose proof (wf_input _ _ _ _ Hw') as Ei'. pose proof (wf_output _ _ _ _ Hw') as Eo'. rewrite list_lookup_fmap, lookup_seq_lt by lia. cbn.
  destruct (name_base _ _ _ _ HG Hw' (i + g_input g') ltac:(lia)) as [-> _]. do 4 f_equal. lia.
Qed.
(** ... and the equations have a solution. *)
Theorem tree_shaped_networks_have_values (sig : R -> R) (one : R) ip op G l m g inputs :
  1 <= ip -> 1 <= op -> reachable one ip op (G, l) -> l !! m = Some g -> ip <= length inputs -> tree_shaped g -> exists val, solves g sig inputs val.
Proof.
  intros Hi Ho Hr Hm Hl Ht. destruct (reachable_genome one _ _ _ _ _ _ Hi Ho Hr Hm) as (HG & Hw & _). apply (solution_exists ip op G g HG Hw); [|done]. by rewrite (wf_input _ _ _ _ Hw).
Qed.

(** * Where the evaluation is not the network *)

Lemma msig_pos x : (0 < msig x)%R.
Proof. unfold msig. apply Rinv_0_lt_compat. pose proof (exp_pos (- (49 / 10) * x)). lra. Qed.
Lemma msig_inj x y : msig x = msig y -> x = y.
Proof.
  unfold msig. intros E. pose proof (exp_pos (- (49 / 10) * x)). pose proof (exp_pos (- (49 / 10) * y)). apply (f_equal Rinv) in E. rewrite !Rinv_inv in E.
  assert (E' : exp (- (49 / 10) * x) = exp (- (49 / 10) * y)) by lra. apply exp_inv in E'. lra.
Qed.
Lemma solves_at g sig inputs val b l : solves g sig inputs val -> leads g b -> ~ an_input g b -> incoming g b l -> val b = total (term g sig val <$> l).
Proof.
  intros [_ H] Hb Hi Hl. destruct (H b Hb Hi) as (l' & Hl' & Hx). apply weighted_term in Hx as ->. apply total_perm, fmap_Permutation. by eapply incoming_perm.
Qed.
Lemma incoming_of g L b l : enabled_are g L -> NoDup l -> (forall num a w, (num, a, w) ∈ l <-> (num, a, b, w) ∈ L) -> incoming g b l.
Proof. intros HL Hn H. split; [done|]. intros num a w. by rewrite H, (HL num a b w). Qed.
Ltac in_list := first [apply elem_of_list_here | apply elem_of_list_further; in_list].
Ltac decs := repeat match goal with H : context [decide (1 <= ?a <= ?b)%nat] |- _ => destruct (decide (1 <= a <= b)%nat) in H; try (exfalso; lia) end.
Ltac in_some := [> repeat (apply list.NoDup_cons; split; [intros ?H; repeat (apply elem_of_cons in H as [H|H]; [discriminate H|]); by apply elem_of_nil in H|]); constructor
  | intros ?n ?a ?w; split; intros ?H; repeat (apply elem_of_cons in H as [H|H]; [first [discriminate H | injection H as -> -> ->; in_list | injection H as -> -> ? ->; first [discriminate | in_list]]|]); by apply elem_of_nil in H].
Ltac gene_list := let gh := fresh "gh" in let gn := fresh "gn" in let ga := fresh "ga" in let gb := fresh "gb" in let gw := fresh "gw" in
  intros gn ga gb gw; split;
  [ let ck := fresh "ck" in let ci := fresh "ci" in let cj := fresh "cj" in let nx := fresh "nx" in let ny := fresh "ny" in
    let hc := fresh "hc" in let hx := fresh "hx" in let hy := fresh "hy" in let ex := fresh "ex" in let ey := fresh "ey" in
    intros (ck & ci & cj & nx & ny & hc & hx & ex & hy & ey);
    do 9 try (destruct ck as [|ck]; [cbn in hc; first [discriminate hc | injection hc as <- <- <- <-; cbn in hx, hy; injection hx as <-; injection hy as <-; cbn in ex, ey; subst ga gb; in_list] | ]); discriminate hc
  | intros gh; repeat (apply elem_of_cons in gh as [gh|gh]; [injection gh as -> -> -> ->; unfold has_gene; cbn | ]); [..|by apply elem_of_nil in gh] ].

Definition pick (z : Z) : nat -> Z := fun _ => z.
Lemma pick_ok z : (0 <= z <= 9)%Z -> rand_ok 9 (pick z).
Proof. intros H k. unfold pick. lia. Qed.
Definition set_to (l : list R) : nat -> R -> R := fun k w => default w (l !! k).

(** evaluated with some fuel, and so with more *)
Definition evaluates_to (sig : R -> R) (G : globals) (g : genome R) (inputs out : list R) : Prop :=
  exists fuel0, forall fuel, fuel0 <= fuel -> feed_forward real_num sig fuel g inputs (gl_nodes G) = Some out.
Lemma evaluates_at sig G g inputs out f : feed_forward real_num sig f g inputs (gl_nodes G) = Some out -> evaluates_to sig G g inputs out.
Proof. intros E. exists f. intros fuel Hf. by eapply feed_forward_more. Qed.
Ltac run_it := apply (evaluates_at _ _ _ _ _ 60); vm_compute; reflexivity.

(** A hidden node with two outgoing connections: 1 -> 3, 3 -> 2, 3 -> 4, 4 -> 2, where 1 is the input, 2 the output and 3 -> 2 skips the node 4.  Whatever the
    weights, what comes through the node 4 is dropped: the output is not the value of the network unless the weight of 4 -> 2 is 0. *)
Definition skip_calls (w1 w2 w3 w4 : R) : list (call R) :=
  [New; Connect 0 9 (pick 0) (pick 0) 1%R; Split 0 9 (pick 0); Split 0 9 (pick 9); Activate 0 9 (pick 3); Weights 0 (set_to [w1; w1; w2; w4; w3])].
Theorem skip_connections_are_evaluated_refuted w1 w2 w3 w4 x :
  exists G l g, reachable 1%R 1 1 (G, l) /\ l !! 0 = Some g /\ enabled_are g [(2, 1, 3, w1); (3, 3, 2, w2); (4, 3, 4, w3); (5, 4, 2, w4)] /\
    (forall sig, evaluates_to sig G g [x] [sig (0 + sig (0 + x * w1) * w2 + 1)%R]) /\
    (w4 <> 0%R -> forall val out, solves g msig [x] val -> evaluates_to msig G g [x] out -> out !! 0 <> Some (msig (val 2%nat + 1)%R)).
Proof.
  destruct (history 1%R 1 1 (init_globals 1 1, []) (skip_calls w1 w2 w3 w4)) as [[G l]|] eqn:E; [|vm_compute in E; discriminate E].
  assert (Hr : reachable 1%R 1 1 (G, l)).
  { exists (skip_calls w1 w2 w3 w4). split; [|done]. unfold skip_calls. repeat (apply list.Forall_cons; split; [cbn; repeat split; try (apply pick_ok; lia)|]). apply list.Forall_nil. done. }
  vm_compute in E. injection E as <- <-. eexists _, _, _. split; [exact Hr|]. split; [reflexivity|]. clear Hr.
  match goal with |- enabled_are ?g _ /\ _ => set (g0 := g) end.
  assert (HL : enabled_are g0 [(2, 1, 3, w1); (3, 3, 2, w2); (4, 3, 4, w3); (5, 4, 2, w4)]).
  { gene_list. - by eexists 1, 0, 2, _, _. - by eexists 2, 2, 1, _, _. - by eexists 3, 2, 3, _, _. - by eexists 4, 3, 1, _, _. }
  split; [done|].
  match goal with |- ?A /\ _ => assert (HE : A) end; [intros sig; unfold g0; run_it|]. split; [done|].
  intros Hw val out Hs [f2 H2] Ho. destruct (HE msig) as [f1 H1]. pose proof (H1 (f1 + f2) ltac:(lia)) as H1'. rewrite (H2 (f1 + f2) ltac:(lia)) in H1'. injection H1' as ->.
  cbn in Ho. injection Ho as Ho. apply msig_inj in Ho.
  assert (L2 : leads g0 2) by (constructor; unfold an_output, is_output; cbn; lia). assert (L4 : leads g0 4) by (eapply leads_step; [apply HL; in_list|done]). assert (L3 : leads g0 3) by (eapply leads_step; [apply HL; in_list|done]).
  assert (V1 : val 1 = x). { destruct Hs as [Hs _]. pose proof (Hs 0 ltac:(cbn; lia)) as Q. cbn in Q. congruence. }
  pose proof (solves_at g0 msig [x] val 3 [(2, 1, w1)] Hs L3 ltac:(unfold an_input, is_input; cbn; lia) ltac:(apply (incoming_of g0 _ _ _ HL); in_some)) as V3.
  pose proof (solves_at g0 msig [x] val 2 [(3, 3, w2); (5, 4, w4)] Hs L2 ltac:(unfold an_input, is_input; cbn; lia) ltac:(apply (incoming_of g0 _ _ _ HL); in_some)) as V2.
  unfold term, total in V3, V2. cbn in V3, V2. decs. rewrite V1 in V3. rewrite Rplus_0_r in V3. rewrite V3 in V2. rewrite V2 in Ho. rewrite (Rplus_0_l (x * w1)) in Ho. pose proof (msig_pos (val 4)) as P4.
  assert (Z : (msig (val 4%nat) * w4 = 0)%R) by lra. apply Rmult_integral in Z as [Z|Z]; [lra|done].
Qed.
(** Two hidden nodes, each connected to two outputs: 1 -> 4, 1 -> 5 and both 4 and 5 -> 2 and 3, where 2 and 3 are the outputs.  What goes from the first
    hidden node to the second output is dropped. *)
Definition layer_calls (w1 w2 w3 w4 w5 w6 : R) : list (call R) :=
  [New; Connect 0 9 (pick 0) (pick 0) 1%R; Connect 0 9 (pick 0) (pick 9) 1%R; Split 0 9 (pick 0); Split 0 9 (pick 0); Connect 0 9 (pick 5) (pick 0) 1%R; Connect 0 9 (pick 9) (pick 0) 1%R;
   Weights 0 (set_to [w1; w1; w1; w2; w3; w5; w6; w4])].
Theorem layered_networks_are_evaluated_refuted w1 w2 w3 w4 w5 w6 x :
  exists G l g, reachable 1%R 1 2 (G, l) /\ l !! 0 = Some g /\ enabled_are g [(3, 1, 4, w1); (5, 1, 5, w2); (4, 4, 2, w3); (7, 4, 3, w4); (8, 5, 2, w5); (6, 5, 3, w6)] /\
    (forall sig, evaluates_to sig G g [x] [sig (0 + sig (0 + x * w1) * w3 + sig (0 + x * w2) * w5 + 1)%R; sig (0 + sig (0 + x * w2) * w6 + 1)%R]) /\
    (w4 <> 0%R -> forall val out, solves g msig [x] val -> evaluates_to msig G g [x] out -> out !! 1 <> Some (msig (val 3%nat + 1)%R)).
Proof.
  destruct (history 1%R 1 2 (init_globals 1 2, []) (layer_calls w1 w2 w3 w4 w5 w6)) as [[G l]|] eqn:E; [|vm_compute in E; discriminate E].
  assert (Hr : reachable 1%R 1 2 (G, l)).
  { exists (layer_calls w1 w2 w3 w4 w5 w6). split; [|done]. unfold layer_calls. repeat (apply list.Forall_cons; split; [cbn; repeat split; try (apply pick_ok; lia)|]). apply list.Forall_nil. done. }
  vm_compute in E. injection E as <- <-. eexists _, _, _. split; [exact Hr|]. split; [reflexivity|]. clear Hr.
  match goal with |- enabled_are ?g _ /\ _ => set (g0 := g) end.
  assert (HL : enabled_are g0 [(3, 1, 4, w1); (5, 1, 5, w2); (4, 4, 2, w3); (7, 4, 3, w4); (8, 5, 2, w5); (6, 5, 3, w6)]).
  { gene_list. - by eexists 2, 0, 3, _, _. - by eexists 4, 0, 4, _, _. - by eexists 3, 3, 1, _, _. - by eexists 6, 3, 2, _, _. - by eexists 7, 4, 1, _, _. - by eexists 5, 4, 2, _, _. }
  split; [done|].
  match goal with |- ?A /\ _ => assert (HE : A) end; [intros sig; unfold g0; run_it|]. split; [done|].
  intros Hw val out Hs [f2 H2] Ho. destruct (HE msig) as [f1 H1]. pose proof (H1 (f1 + f2) ltac:(lia)) as H1'. rewrite (H2 (f1 + f2) ltac:(lia)) in H1'. injection H1' as ->.
  cbn in Ho. injection Ho as Ho. apply msig_inj in Ho.
  assert (L3 : leads g0 3) by (constructor; unfold an_output, is_output; cbn; lia). assert (L4 : leads g0 4) by (apply (leads_step g0 7 4 3 w4); [apply HL; in_list|apply L3]). assert (L5 : leads g0 5) by (apply (leads_step g0 6 5 3 w6); [apply HL; in_list|apply L3]).
  assert (V1 : val 1 = x). { destruct Hs as [Hs _]. pose proof (Hs 0 ltac:(cbn; lia)) as Q. cbn in Q. congruence. }
  pose proof (solves_at g0 msig [x] val 5 [(5, 1, w2)] Hs L5 ltac:(unfold an_input, is_input; cbn; lia) ltac:(apply (incoming_of g0 _ _ _ HL); in_some)) as V5.
  pose proof (solves_at g0 msig [x] val 3 [(7, 4, w4); (6, 5, w6)] Hs L3 ltac:(unfold an_input, is_input; cbn; lia) ltac:(apply (incoming_of g0 _ _ _ HL); in_some)) as V3.
  unfold term, total in V3, V5. cbn in V3, V5. decs. rewrite V1 in V5. rewrite Rplus_0_r in V5. rewrite V5 in V3. rewrite V3 in Ho. rewrite (Rplus_0_l (x * w2)) in Ho. pose proof (msig_pos (val 4)) as P4.
  assert (Z : (msig (val 4%nat) * w4 = 0)%R) by lra. apply Rmult_integral in Z as [Z|Z]; [lra|done].
Qed.
(** A hidden node whose incoming connections are all disabled: 1 -> 2 and 3 -> 2.  Its activation of 0 is dropped. *)
Definition dead_calls (w1 w2 : R) : list (call R) :=
  [New; Connect 0 9 (pick 0) (pick 0) 1%R; Split 0 9 (pick 0); Activate 0 9 (pick 0); Remove 0 9 (pick 5); Weights 0 (set_to [w1; w1; w2])].
Theorem nodes_without_inputs_are_evaluated_refuted w1 w2 x :
  exists G l g, reachable 1%R 1 1 (G, l) /\ l !! 0 = Some g /\ enabled_are g [(1, 1, 2, w1); (3, 3, 2, w2)] /\
    (forall sig, evaluates_to sig G g [x] [sig (0 + x * w1 + 1)%R]) /\
    (w2 <> 0%R -> forall val out, solves g msig [x] val -> evaluates_to msig G g [x] out -> out !! 0 <> Some (msig (val 2%nat + 1)%R)).
Proof.
  destruct (history 1%R 1 1 (init_globals 1 1, []) (dead_calls w1 w2)) as [[G l]|] eqn:E; [|vm_compute in E; discriminate E].
  assert (Hr : reachable 1%R 1 1 (G, l)).
  { exists (dead_calls w1 w2). split; [|done]. unfold dead_calls. repeat (apply list.Forall_cons; split; [cbn; repeat split; try (apply pick_ok; lia)|]). apply list.Forall_nil. done. }
  vm_compute in E. injection E as <- <-. eexists _, _, _. split; [exact Hr|]. split; [reflexivity|]. clear Hr.
  match goal with |- enabled_are ?g _ /\ _ => set (g0 := g) end.
  assert (HL : enabled_are g0 [(1, 1, 2, w1); (3, 3, 2, w2)]).
  { gene_list. - by eexists 0, 0, 1, _, _. - by eexists 2, 2, 1, _, _. }
  split; [done|].
  match goal with |- ?A /\ _ => assert (HE : A) end; [intros sig; unfold g0; run_it|]. split; [done|].
  intros Hw val out Hs [f2 H2] Ho. destruct (HE msig) as [f1 H1]. pose proof (H1 (f1 + f2) ltac:(lia)) as H1'. rewrite (H2 (f1 + f2) ltac:(lia)) in H1'. injection H1' as ->.
  cbn in Ho. injection Ho as Ho. apply msig_inj in Ho.
  assert (L2 : leads g0 2) by (constructor; unfold an_output, is_output; cbn; lia).
  assert (V1 : val 1 = x). { destruct Hs as [Hs _]. pose proof (Hs 0 ltac:(cbn; lia)) as Q. cbn in Q. congruence. }
  pose proof (solves_at g0 msig [x] val 2 [(1, 1, w1); (3, 3, w2)] Hs L2 ltac:(unfold an_input, is_input; cbn; lia) ltac:(apply (incoming_of g0 _ _ _ HL); in_some)) as V2.
  unfold term, total in V2. cbn in V2. decs. rewrite V1 in V2. rewrite V2 in Ho. pose proof (msig_pos (val 3)) as P3.
  assert (Z : (msig (val 3%nat) * w2 = 0)%R) by lra. apply Rmult_integral in Z as [Z|Z]; [lra|done].
Qed.

(** * Examples: genomes that meet the hypotheses *)
(** two inputs 1 and 2, the output 3 and the hidden node 4 *)
Definition tree_calls (w1 w2 w3 w4 : R) : list (call R) :=
  [New; Connect 0 9 (pick 0) (pick 0) 1%R; Split 0 9 (pick 0); Connect 0 9 (pick 5) (pick 0) 1%R; Connect 0 9 (pick 5) (pick 9) 1%R; Weights 0 (set_to [w1; w1; w2; w4; w3])].
Example a_tree_shaped_genome w1 w2 w3 w4 x y : exists G l g, reachable 1%R 2 1 (G, l) /\ l !! 0 = Some g /\ enabled_are g [(2, 1, 4, w1); (3, 4, 3, w3); (4, 2, 3, w2); (5, 2, 4, w4)] /\
  tree_shaped g /\ no_dead_start g /\ forall sig, evaluates_to sig G g [x; y] [sig (0 + sig (0 + x * w1 + y * w4) * w3 + y * w2 + 1)%R].
Proof.
  destruct (history 1%R 2 1 (init_globals 2 1, []) (tree_calls w1 w2 w3 w4)) as [[G l]|] eqn:E; [|vm_compute in E; discriminate E].
  assert (Hr : reachable 1%R 2 1 (G, l)).
  { exists (tree_calls w1 w2 w3 w4). split; [|done]. unfold tree_calls. repeat (apply list.Forall_cons; split; [cbn; repeat split; try (apply pick_ok; lia)|]). apply list.Forall_nil. done. }
  vm_compute in E. injection E as <- <-. eexists _, _, _. split; [exact Hr|]. split; [reflexivity|]. clear Hr.
  match goal with |- enabled_are ?g _ /\ _ => set (g0 := g) end.
  assert (HL : enabled_are g0 [(2, 1, 4, w1); (3, 4, 3, w3); (4, 2, 3, w2); (5, 2, 4, w4)]).
  { gene_list. - by eexists 1, 0, 3, _, _. - by eexists 2, 3, 2, _, _. - by eexists 3, 1, 2, _, _. - by eexists 4, 1, 3, _, _. }
  split; [done|]. split.
  { intros num num' a b b' w w' Ha H H'. apply HL in H, H'. unfold an_input, is_input in Ha. cbn in Ha.
    assert (Q : forall n c v, (n, a, c, v) ∈ [(2, 1, 4, w1); (3, 4, 3, w3); (4, 2, 3, w2); (5, 2, 4, w4)] -> n = 3).
    { intros n c v Hn. repeat (apply elem_of_cons in Hn as [Hn|Hn]; [injection Hn as -> ? ? ?; first [done|lia]|]). by apply elem_of_nil in Hn. }
    rewrite (Q _ _ _ H), (Q _ _ _ H'). done. }
  split.
  { intros b Hb Hi Ho. unfold an_input, an_output, is_input, is_output in Hi, Ho. cbn in Hi, Ho. exists 2, 1, w1. apply HL.
    assert (b = 4) as ->; [|in_list]. inversion Hb as [o Ho'|num a c w Hc _]; subst.
    - unfold an_output, is_output in Ho'. cbn in Ho'. lia.
    - apply HL in Hc. repeat (apply elem_of_cons in Hc as [Hc|Hc]; [injection Hc as ? ? ? ?; lia|]). by apply elem_of_nil in Hc. }
  intros sig. unfold g0. run_it.
Qed.
(** A loop, 3 -> 3.  In the second pass the node gets what the loop brings from the first one, and that only: the input x * w1 is not added again. *)
Definition loop_calls (w1 w2 w3 : R) : list (call R) :=
  [New; Connect 0 9 (pick 0) (pick 0) 1%R; Split 0 9 (pick 0); Connect 0 9 (pick 9) (pick 9) 1%R; Weights 0 (set_to [w1; w1; w2; w3])].
Example a_genome_with_a_loop w1 w2 w3 x : exists G l g, reachable 1%R 1 1 (G, l) /\ l !! 0 = Some g /\ enabled_are g [(2, 1, 3, w1); (3, 3, 2, w2); (4, 3, 3, w3)] /\
  forall sig, evaluates_to sig G g [x] [sig (0 + sig (sig (0 + x * w1) * w3) * w2 + 1)%R].
Proof.
  destruct (history 1%R 1 1 (init_globals 1 1, []) (loop_calls w1 w2 w3)) as [[G l]|] eqn:E; [|vm_compute in E; discriminate E].
  assert (Hr : reachable 1%R 1 1 (G, l)).
  { exists (loop_calls w1 w2 w3). split; [|done]. unfold loop_calls. repeat (apply list.Forall_cons; split; [cbn; repeat split; try (apply pick_ok; lia)|]). apply list.Forall_nil. done. }
  vm_compute in E. injection E as <- <-. eexists _, _, _. split; [exact Hr|]. split; [reflexivity|]. clear Hr.
  split; [gene_list|intros sig; run_it]. - by eexists 1, 0, 2, _, _. - by eexists 2, 2, 1, _, _. - by eexists 3, 2, 2, _, _.
Qed.

Print Assumptions evaluation_ends.
Print Assumptions tree_shaped_genomes_compute_their_network.
Print Assumptions tree_shaped_networks_have_values.
Print Assumptions skip_connections_are_evaluated_refuted.
Print Assumptions layered_networks_are_evaluated_refuted.
Print Assumptions nodes_without_inputs_are_evaluated_refuted.
