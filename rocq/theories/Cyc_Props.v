(** C68: what the cycle check of connected structures decides, and where it is wrong. *)
From Verif Require Import Base BaseLemmas Cyc_Model Cyc_Spec Cyc_Proofs Cyc2_Proofs.
Open Scope nat_scope.

(** On every well-formed graph of fresh handlers the check ends, with an answer, after at most as many
    nested calls as there are handlers, and no handler is changed but for its mark and depth. *)
Theorem C68_check_ends : forall g s d fuel, graph_ok g -> unvisited g -> s < length g -> length g <= fuel ->
  exists b g', no_cycles fuel g s d = Some (b, g') /\ length g' = length g /\
    forall u h, g !! u = Some h -> exists h', g' !! u = Some h' /\
      h_inputs h' = h_inputs h /\ h_outputs h' = h_outputs h /\ n_in h' = n_in h /\ n_out h' = n_out h.
Proof.
  intros g s d fuel Hok Hu Hs Hf. destruct (check_total g s d fuel Hok Hu Hs Hf) as (b & g' & E & He & _). exists b, g'. split; [done|].
  split; [symmetry; by eapply Forall2_length|]. intros u h Hh. destruct (Forall2_lookup_l _ _ _ _ _ He Hh) as (h' & Hh' & Hs' & _). eauto.
Qed.

(** What an accepted graph satisfies: there are depths such that no edge between nodes that can be
    reached leads up, and every such node is joined to the start by edges that lead one level down. *)
Theorem C68_accepted_graphs_have_depths : forall g s d fuel g', graph_ok g -> unvisited g -> s < length g -> length g <= fuel ->
  no_cycles fuel g s d = Some (true, g') ->
  exists dep : nat -> Z, dep s = d /\
    (forall u v, reach g s u -> reach g s v -> edge g u v -> (dep u <= dep v)%Z) /\
    (forall v, reach g s v -> rtc (joined (fun a b => edge g a b /\ dep b = (dep a + 1)%Z)) s v).
Proof. intros g s d fuel g' Hok Hu Hs Hf E. exists (dep_of g'). by eapply accepted_depths. Qed.

(** The claim of the name, for the cycles it holds for: a directed cycle whose edges are needed to
    connect some reachable structure to the start is reported. *)
Theorem C68_needed_cycles_are_reported_partial : forall g s d fuel l w, graph_ok g -> unvisited g -> s < length g -> length g <= fuel ->
  cycle g l -> Forall (reach g s) l -> reach g s w -> ~ rtc (joined (fun a b => edge g a b /\ ~ succ_in l a b)) s w ->
  exists g', no_cycles fuel g s d = Some (false, g').
Proof.
  intros g s d fuel l w Hok Hu Hs Hf Hc Hl Hw Hn. destruct (check_total g s d fuel Hok Hu Hs Hf) as (b & g' & E & _).
  destruct b; [|by exists g']. exfalso. destruct (accepted_depths g s d fuel g' Hok Hu Hs Hf E) as (_ & Hmono & Htree).
  assert (Hconst := cycle_const g l (dep_of g') Hc). apply Hn. clear Hn.
  assert (HC : forall a b, succ_in l a b -> dep_of g' b = dep_of g' a).
  { apply Hconst. intros u v Hul Hvl. apply Hmono; [by apply (proj1 (list.Forall_forall _ _) Hl)|by apply (proj1 (list.Forall_forall _ _) Hl)]. }
  eapply rtc_subrel; [|by apply Htree]. intros a b [[Hab Hd]|[Hab Hd]]; [left|right]; (split; [done|]); intros Hsu; apply HC in Hsu; lia.
Qed.

(** In particular: when every edge is on the cycle, and some structure besides the start can be reached. *)
Theorem C68_rings_are_reported : forall g s d fuel l w, graph_ok g -> unvisited g -> s < length g -> length g <= fuel ->
  cycle g l -> Forall (reach g s) l -> (forall u v, edge g u v -> succ_in l u v) -> reach g s w -> w <> s ->
  exists g', no_cycles fuel g s d = Some (false, g').
Proof.
  intros g s d fuel l w Hok Hu Hs Hf Hc Hl Hall Hw Hne. eapply C68_needed_cycles_are_reported_partial; eauto.
  intros Hr. apply Hne. destruct Hr as [|x y z Hxy _]; [done|]. destruct Hxy as [[He Hx]|[He Hx]]; destruct Hx; by apply Hall.
Qed.

(** Graphs in which every edge leads exactly one level down are accepted, from every start and depth. *)
Theorem C68_graded_graphs_are_accepted : forall g s d fuel, graph_ok g -> unvisited g -> s < length g -> length g <= fuel -> graded g ->
  exists g', no_cycles fuel g s d = Some (true, g').
Proof.
  intros g s d fuel Hok Hu Hs Hf [level HD]. destruct (lookup_lt_is_Some_2 g s Hs) as [h Hh].
  destruct (no_cycles_acc g Hok fuel (fun x => (level x - level s + d)%Z)) with (g := g) (s := s) (h := h) as (g' & E & _);
    [intros u v Huv; rewrite (HD u v Huv); lia|apply sh_refl|done|by eapply Hu|pose proof (unv_le g); lia| |].
  - intros x e Hx. destruct (unvisited_V g x Hu). by exists e.
  - exists g'. rewrite <- E. f_equal. lia.
Qed.

(** A fresh handler with its lists, complete *)
Definition nd (i o : list nat) : handler := mkH i o (length i) (Some (length o)) false 0.
Lemma nd_ok (l : list (list nat * list nat)) (g : list handler) : g = (fun p => nd p.1 p.2) <$> l ->
  Forall (fun p => Forall (fun v => v < length l) p.1 /\ Forall (fun v => v < length l) p.2) l -> graph_ok g /\ unvisited g.
Proof.
  intros -> Hl. split.
  - intros u h Hh. apply list_lookup_fmap_Some in Hh as (p & Hp & ->). pose proof (proj1 (Forall_lookup _ _) Hl u p Hp) as [H1 H2].
    cbn. split; [done|]. split; [by eexists|]. unfold ins, outs. cbn. rewrite !firstn_all, fmap_length.
    split; [by apply list.Forall_forall|by apply list.Forall_forall].
  - intros u h Hh. by apply list_lookup_fmap_Some in Hh as (p & Hp & ->).
Qed.
Ltac edges :=
  intros u v [(h & Hh & Hv)|(h & Hh & Hv)];
  [destruct u as [|[|[|[|u]]]]|destruct v as [|[|[|[|v]]]]]; cbn in Hh; simplify_eq; cbn in Hv;
  repeat (apply elem_of_cons in Hv as [->|Hv]); try (by apply elem_of_nil in Hv).

(** The check is not a cycle check.  It reports some graphs without any directed cycle: here a chain of
    four structures with a connection from the first to the last. *)
Definition g_skip : list handler := [nd [] [2; 1]; nd [0] [3]; nd [0; 3] []; nd [1] [2]].
Theorem C68_acyclic_graphs_are_reported_refuted :
  graph_ok g_skip /\ unvisited g_skip /\ acyclic g_skip /\ exists g', no_cycles 4 g_skip 0 0 = Some (false, g').
Proof.
  destruct (nd_ok [([], [2; 1]); ([0], [3]); ([0; 3], []); ([1], [2])] g_skip eq_refl) as [H1 H2]; [repeat constructor; cbn; lia|].
  split; [done|]. split; [done|]. split; [|eexists; vm_compute; reflexivity].
  apply (ranked_acyclic _ (fun x => match x with 0 => 0%Z | 1 => 1%Z | 3 => 2%Z | _ => 3%Z end)). edges; cbn; lia.
Qed.

(** And it accepts some graphs with a directed cycle: two structures that feed each other and are both
    fed by a third; and a structure that feeds itself. *)
Definition g_pair : list handler := [nd [] [2; 1]; nd [0; 2] [2]; nd [0; 1] [1]].
Theorem C68_cycles_are_accepted_refuted :
  graph_ok g_pair /\ unvisited g_pair /\ cycle g_pair [1; 2] /\ reach g_pair 1 2 /\ exists g', no_cycles 3 g_pair 1 0 = Some (true, g').
Proof.
  destruct (nd_ok [([], [2; 1]); ([0; 2], [2]); ([0; 1], [1])] g_pair eq_refl) as [H1 H2]; [repeat constructor; cbn; lia|].
  split; [done|]. split; [done|]. split.
  { split; [done|]. intros u v (i & Hi & Hv). destruct i as [|[|i]]; cbn in Hi, Hv; simplify_eq; left; eexists; (split; [reflexivity|]); cbn; constructor. }
  split; [|eexists; vm_compute; reflexivity]. apply rtc_once. exists (nd [0; 2] [2]). split; [done|]. right. cbn. constructor.
Qed.

Theorem C68_self_loops_are_accepted_refuted : forall d, let g := [nd [0] [0]] in
  graph_ok g /\ unvisited g /\ cycle g [0] /\ exists g', no_cycles 1 g 0 d = Some (true, g').
Proof.
  intros d g. destruct (nd_ok [([0], [0])] g eq_refl) as [H1 H2]; [repeat constructor; cbn; lia|]. split; [done|]. split; [done|]. split.
  - split; [done|]. intros u v (i & Hi & Hv). destruct i as [|i]; cbn in Hi, Hv; simplify_eq. left. eexists. split; [reflexivity|]. cbn. constructor.
  - exists [mkH [0] [0] 1 (Some 1) true d]. cbn. rewrite Z.ltb_irrefl. cbn. rewrite Z.ltb_irrefl. done.
Qed.

(** The marks are never taken back, so a second check of the same graph is meaningless: every graded
    graph that was just accepted is reported when the check is started again two levels further down. *)
Theorem C68_second_checks_report_accepted_graphs_refuted : forall g level s t i h fuel, graph_ok g -> unvisited g ->
  (forall u v, edge g u v -> level v = (level u + 1)%Z) -> s < length g -> length g <= fuel ->
  reach g s t -> (level s + 2 <= level t)%Z -> g !! t = Some h -> i ∈ ins h ->
  exists g1 g2, no_cycles fuel g s 0 = Some (true, g1) /\ no_cycles fuel g1 t 0 = Some (false, g2).
Proof. intros. by eapply second_call. Qed.

(** The constructor checks that counts and arrays agree, but never stores the number of outputs: the
    check never answers that a graph with the handler it made as the start has no cycles, and with no
    inputs its behaviour is undefined. *)
Theorem C68_constructed_handlers : forall ni no i o h, struct_handler ni no i o = Some h ->
  (ni = 0 <-> i = None) /\ (no = 0 <-> o = None) /\
  h_inputs h = default [] i /\ h_outputs h = default [] o /\ n_in h = ni /\ n_out h = None /\ visited h = false /\ depth h = 0%Z.
Proof.
  intros ni no i o h. unfold struct_handler. intros H.
  destruct (decide (ni = 0)), i as [i|], (decide (no = 0)), o as [o|]; simplify_eq; cbn; repeat split; intros; simplify_eq; done.
Qed.
Theorem C68_constructor_refuses : forall ni no i o, struct_handler ni no i o = None <->
  ~ ((ni = 0 <-> i = None) /\ (no = 0 <-> o = None)).
Proof.
  intros ni no i o. unfold struct_handler.
  destruct (decide (ni = 0)), i as [i|], (decide (no = 0)), o as [o|]; split; intros H; try done;
    try (exfalso; apply H; split; split; intros; congruence); intros [[A1 A2] [B1 B2]];
    first [by specialize (A1 ltac:(done))|by specialize (B1 ltac:(done))|by specialize (A2 eq_refl)|by specialize (B2 eq_refl)].
Qed.
Theorem C68_constructed_handlers_cannot_be_checked_refuted : forall ni no i o h g s d fuel,
  struct_handler ni no i o = Some h -> g !! s = Some h ->
  (forall g', no_cycles fuel g s d <> Some (true, g')) /\ (ni = 0 -> no_cycles fuel g s d = None).
Proof.
  intros ni no i o h g s d fuel Hc Hs. apply C68_constructed_handlers in Hc as (_ & _ & _ & _ & Hi & Ho & _). destruct fuel as [|f]; [done|].
  cbn [no_cycles]. rewrite (Hs : rd g s = Some h). cbn [mbind option_bind]. rewrite Ho. split.
  - intros g'. destruct (scan _ _ _ _ _ _ _) as [[[] g2]|]; cbn; congruence.
  - intros Hn. rewrite Hi, Hn. done.
Qed.

(** *** Instances of the hypotheses *)
(** a ring of three structures, with the lists on both sides *)
Definition g_ring : list handler := [nd [2] [1]; nd [0] [2]; nd [1] [0]].
Lemma g_ring_reach v : v < 3 -> reach g_ring 0 v.
Proof.
  intros Hv. assert (H1 : lists g_ring 0 1) by (eexists; split; [reflexivity|]; right; cbn; constructor).
  assert (H2 : lists g_ring 0 2) by (eexists; split; [reflexivity|]; left; cbn; constructor).
  destruct v as [|[|[|v]]]; [apply rtc_refl|by apply rtc_once|by apply rtc_once|lia].
Qed.
Example C68_ring_example : graph_ok g_ring /\ unvisited g_ring /\ exists g', no_cycles 3 g_ring 0 0 = Some (false, g').
Proof.
  destruct (nd_ok [([2], [1]); ([0], [2]); ([1], [0])] g_ring eq_refl) as [H1 H2]; [repeat constructor; cbn; lia|].
  split; [done|]. split; [done|]. apply (C68_rings_are_reported g_ring 0 0 3 [0; 1; 2] 1); try done; cbn; try lia.
  - split; [done|]. intros u v (i & Hi & Hv). destruct i as [|[|[|i]]]; cbn in Hi, Hv; simplify_eq; left; eexists; (split; [reflexivity|]); cbn; constructor.
  - repeat constructor; apply g_ring_reach; lia.
  - unfold g_ring. edges; first [by exists 0|by exists 1|by exists 2].
  - apply g_ring_reach. lia.
Qed.
(** a ring of two with a tail: the cycle is needed to reach the tail *)
Definition g_chain : list handler := [nd [] [1]; nd [0] [2]; nd [1] []].
Example C68_chain_example : exists g1 g2, no_cycles 3 g_chain 0 0 = Some (true, g1) /\ no_cycles 3 g1 2 0 = Some (false, g2).
Proof.
  destruct (nd_ok [([], [1]); ([0], [2]); ([1], [])] g_chain eq_refl) as [H1 H2]; [repeat constructor; cbn; lia|].
  apply (C68_second_checks_report_accepted_graphs_refuted g_chain Z.of_nat 0 2 1 (nd [1] []) 3); try done; cbn; try lia.
  - unfold g_chain. edges; cbn; lia.
  - eapply rtc_l; [exists (nd [] [1]); split; [done|]; right; cbn; constructor|]. apply rtc_once. exists (nd [0] [2]). split; [done|]. right. cbn. constructor.
  - constructor.
Qed.
Example C68_constructor_example : struct_handler 0 1 None (Some [1]) = Some (mkH [] [1] 0 None false 0) /\ struct_handler 1 0 None None = None.
Proof. done. Qed.

Print Assumptions C68_check_ends.
Print Assumptions C68_accepted_graphs_have_depths.
Print Assumptions C68_needed_cycles_are_reported_partial.
Print Assumptions C68_rings_are_reported.
Print Assumptions C68_graded_graphs_are_accepted.
Print Assumptions C68_acyclic_graphs_are_reported_refuted.
Print Assumptions C68_cycles_are_accepted_refuted.
Print Assumptions C68_self_loops_are_accepted_refuted.
Print Assumptions C68_second_checks_report_accepted_graphs_refuted.
Print Assumptions C68_constructed_handlers.
Print Assumptions C68_constructor_refuses.
Print Assumptions C68_constructed_handlers_cannot_be_checked_refuted.
