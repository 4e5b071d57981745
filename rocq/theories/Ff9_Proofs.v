From Coq Require Import Reals Lra.
From Verif Require Import Base BaseLemmas Neat_Model Neat_Spec Neat4_Proofs Mcts_Model Ff_Model Ff_Proofs Ff2_Proofs Ff3_Proofs Ff4_Proofs Ff5_Proofs Ff6_Proofs Ff7_Proofs Ff8_Proofs Ff_Spec.
Open Scope nat_scope.

Lemma total_perm l l' : l ≡ₚ l' -> total l = total l'.
Proof. induction 1; cbn; unfold total in *; lra. Qed.

Section conv.
Context (ip op : nat) (G : globals) (g : genome R) (HG : consistent ip op G) (Hw : well_formed ip op G g).
Notation N := (gl_nodes G). Notation n := (length (g_nodes g)).
Let Hg : okg N g := wf_okg ip op G g N HG Hw (le_n _).
Definition name (v : nat) : nat := S (nmb g v).

Lemma name_node v : v < n -> exists x, g_nodes g !! v = Some x /\ n_inn x = name v.
Proof using HG Hw. intros Hv. destruct (num_lt N g Hg v Hv) as (E & _). by apply number_in in E. Qed.
Lemma name_inj u v : u < n -> v < n -> name u = name v -> u = v.
Proof using HG Hw. intros Hu Hv E. apply (num_inj N g Hg); [done|done|]. unfold name in E. lia. Qed.
Lemma node_name v x : g_nodes g !! v = Some x -> n_inn x = name v /\ v < n.
Proof using HG Hw. intros Hx. pose proof (lookup_lt_Some _ _ _ Hx). destruct (name_node v ltac:(done)) as (y & Hy & <-). split; [congruence|done]. Qed.
Lemma name_input v : v < n -> an_input g (name v) <-> v < g_input g.
Proof using HG Hw. intros Hv. destruct (num_lt N g Hg v Hv) as (_ & _ & H). unfold an_input, is_input, name. lia. Qed.
Lemma name_base v : v < g_input g + g_output g -> name v = v + 1 /\ v < n.
Proof using HG Hw.
  intros Hv. pose proof (wf_input _ _ _ _ Hw). pose proof (wf_output _ _ _ _ Hw). destruct (wf_base _ _ _ _ Hw v ltac:(lia)) as (x & Hx & E). apply node_name in Hx as [? ?]. split; [congruence|done].
Qed.
Lemma name_output v : v < n -> an_output g (name v) <-> g_input g <= v < g_input g + g_output g.
Proof using HG Hw.
  intros Hv. unfold an_output, is_output. split.
  - intros H. destruct (name_base (name v - 1) ltac:(lia)) as [E Hl]. assert (v = name v - 1); [|lia]. apply name_inj; [done|done|lia].
  - intros H. destruct (name_base v ltac:(lia)) as [E _]. lia.
Qed.

Lemma live_gene k v : k ∈ live g v -> exists num, has_gene g num (name (src g k)) (name v) true (wgt g k) /\ exists c, g_conns g !! k = Some c /\ c_inn c = num.
Proof using HG Hw.
  intros Hk. destruct (live_facts N g Hg k v Hk) as (Ed & Hs & Hv & _). apply (live_in N g Hg) in Hk as (c & Hc & Hf & Hd & _). exists (c_inn c). split; [|eauto].
  destruct (name_node v ltac:(lia)) as (y & Hy & Ey). destruct (name_node (src g k) Hs) as (x & Hx & Ex). exists k, (src g k), v, x, y. unfold src, wgt in *. rewrite Hc in *.
  split; [|done]. destruct c; cbn in *. by subst.
Qed.
Lemma gene_live num a b w : has_gene g num a b true w -> exists k v c, v < n /\ k ∈ live g v /\ name (src g k) = a /\ name v = b /\ wgt g k = w /\ g_conns g !! k = Some c /\ c_inn c = num.
Proof using HG Hw.
  intros (k & i & j & x & y & Hc & Hx & Ex & Hy & Ey). exists k, j, (mkConn num i j true w). pose proof (node_name _ _ Hx) as [? _]. pose proof (node_name _ _ Hy) as [? ?]. split; [done|]. split.
  - apply (live_in N g Hg). by eexists.
  - unfold src, wgt. rewrite Hc. cbn. split; [congruence|]. split; [congruence|done].
Qed.
Lemma dist_leads v d : dist g v d -> leads g (name v).
Proof using HG Hw.
  induction 1 as [o Ho|v d k Hd IH Hk].
  - apply leads_out. apply name_output; [|done]. apply name_base. lia.
  - destruct (live_gene k v Hk) as (num & H & _). by eapply leads_step.
Qed.
Lemma leads_dist b : leads g b -> exists v d, dist g v d /\ name v = b.
Proof using HG Hw.
  induction 1 as [o Ho|num a b w H Hl (v & d & Hd & E)].
  - unfold an_output, is_output in Ho. destruct (name_base (o - 1) ltac:(lia)) as [E Hl]. exists (o - 1), 0. split; [constructor; lia|lia].
  - destruct (gene_live _ _ _ _ H) as (k & v' & c & Hv' & Hk & Ea & Eb & _). assert (v' = v) as ->. { apply name_inj; [done| |congruence]. by eapply (dist_lt N g Hg). }
    exists (src g k), (S d). split; [by econstructor|done].
Qed.

Lemma forest_of : tree_shaped g -> forall k k', k ∈ live g (dst g k) -> k' ∈ live g (dst g k') -> src g k = src g k' -> g_input g <= src g k -> k = k'.
Proof using HG Hw.
  intros Ht k k' Hk Hk' E Hi. destruct (live_gene _ _ Hk) as (num & H & c & Hc & En). destruct (live_gene _ _ Hk') as (num' & H' & c' & Hc' & En'). rewrite <- E in H'.
  destruct (live_facts N g Hg _ _ Hk) as (_ & Hs & _).
  assert (num = num') as Enn. { eapply Ht; [|exact H|exact H']. intros Hin. apply name_input in Hin; [lia|done]. }
  apply (NoDup_lookup (c_inn <$> g_conns g) k k' num (wf_genes _ _ _ _ Hw)); rewrite list_lookup_fmap; [rewrite Hc|rewrite Hc']; cbn; congruence.
Qed.
Lemma fed_of : no_dead_start g -> forall v d, dist g v d -> g_input g + g_output g <= v -> live g v <> [].
Proof using HG Hw.
  intros Hf v d Hd Hv. pose proof (dist_lt N g Hg v d Hd) as Hn. destruct (Hf (name v)) as (num & a & w & H).
  - by eapply dist_leads. - rewrite name_input by done. lia. - rewrite name_output by done. lia.
  - apply gene_live in H as (k & v' & c & Hv' & Hk & _ & E & _). apply name_inj in E; [|done|done]. subst v'. intros El. rewrite El in Hk. by apply elem_of_nil in Hk.
Qed.

Definition entry (k : nat) : nat * nat * R := (match g_conns g !! k with Some c => c_inn c | None => 0 end, name (src g k), wgt g k).
Lemma live_nodup v : NoDup (live g v).
Proof using HG Hw. unfold live. apply list.NoDup_filter. apply (ins_nodup N g Hg). Qed.
Lemma entries v : v < n -> incoming g (name v) (entry <$> live g v).
Proof using HG Hw.
  intros Hv. split.
  - apply NoDup_fmap_2_strong; [|apply live_nodup]. intros k k' Hk Hk' E. apply (live_in N g Hg) in Hk as (c & Hc & _). apply (live_in N g Hg) in Hk' as (c' & Hc' & _).
    injection E as E _ _. rewrite Hc, Hc' in E. apply (NoDup_lookup (c_inn <$> g_conns g) k k' (c_inn c) (wf_genes _ _ _ _ Hw)); rewrite list_lookup_fmap; [rewrite Hc|rewrite Hc']; cbn; congruence.
  - intros num a w. rewrite elem_of_list_fmap. split.
    + intros (k & E & Hk). destruct (live_gene k v Hk) as (num' & H & c & Hc & En). injection E as -> -> ->. rewrite Hc, En. done.
    + intros H. destruct (gene_live _ _ _ _ H) as (k & v' & c & Hv' & Hk & Ea & Eb & Ew & Hc & En). apply name_inj in Eb; [|done|done]. subst v'. exists k. split; [|done].
      unfold entry. rewrite Hc. congruence.
Qed.
Lemma incoming_perm b l l' : incoming g b l -> incoming g b l' -> l ≡ₚ l'.
Proof. intros [H1 H2] [H3 H4]. apply NoDup_Permutation; [done|done|]. intros [[num a] w]. by rewrite H2, H4. Qed.
Definition term (sig : R -> R) (val : nat -> R) (t : nat * nat * R) : R := ((if decide (1 <= t.1.2 <= g_input g)%nat then val t.1.2 else sig (val t.1.2)) * t.2)%R.
Lemma weighted_term sig val l x : weighted g sig val l x <-> x = total (term sig val <$> l).
Proof.
  split.
  - induction 1 as [|num a w l y x Hs _ ->]; [done|]. cbn [fmap list_fmap]. unfold total. cbn [foldr]. f_equal. unfold term. cbn [fst snd]. destruct (decide (1 <= a <= g_input g)) as [H|H]; destruct Hs as [[H' ->]|[H' ->]]; unfold an_input, is_input in *; try lia; done.
  - intros ->. induction l as [|[[num a] w] l IH]; [constructor|]. cbn [fmap list_fmap]. unfold total. cbn [foldr]. unfold term at 1. cbn [fst snd]. constructor; [|done]. unfold sent, an_input, is_input. destruct (decide (1 <= a <= g_input g)); [by left|by right].
Qed.
Lemma term_contrib sig val k v : k ∈ live g v -> term sig val (entry k) = contrib sig g (fun u => val (name u)) k.
Proof using HG Hw.
  intros Hk. destruct (live_facts N g Hg k v Hk) as (_ & Hs & _). unfold term, entry, contrib, signal_. cbn [fst snd]. pose proof (name_input (src g k) Hs) as H. unfold an_input, is_input in H.
  destruct (decide (1 <= _ <= _)), (decide (src g k < g_input g)); try tauto; lia.
Qed.
Lemma sum_contrib sig val v l x : v < n -> incoming g (name v) l -> weighted g sig val l x -> x = total (contrib sig g (fun u => val (name u)) <$> live g v).
Proof using HG Hw.
  intros Hv Hl Hx. apply weighted_term in Hx as ->. rewrite (total_perm _ (term sig val <$> (entry <$> live g v))) by (apply fmap_Permutation, (incoming_perm (name v)); [done|by apply entries]).
  f_equal. rewrite <- list_fmap_compose. apply list_fmap_ext. intros i k Hk. cbn. eapply term_contrib. by eapply elem_of_list_lookup_2.
Qed.

Lemma solves_index sig inputs val : solves g sig inputs val ->
  (forall v, v < g_input g -> inputs !! v = Some (val (name v))) /\
  forall v d, dist g v d -> g_input g <= v -> val (name v) = total (contrib sig g (fun u => val (name u)) <$> live g v).
Proof using HG Hw.
  intros [H1 H2]. split.
  - intros v Hv. rewrite H1 by done. destruct (name_base v ltac:(lia)) as [-> _]. done.
  - intros v d Hd Hv. pose proof (dist_lt N g Hg v d Hd) as Hn. destruct (H2 (name v)) as (l & Hl & Hx); [by eapply dist_leads|rewrite name_input by done; lia|]. by eapply sum_contrib.
Qed.

(** ** A solution exists *)
Section exist.
Context (sig : R -> R) (inputs : list R) (Hinp : g_input g <= length inputs) (Ht : tree_shaped g).
Let Hforest := forest_of Ht.
Fixpoint value (fuel v : nat) : R := if decide (v < g_input g) then default 0%R (inputs !! v) else
  match fuel with 0 => 0%R | S fuel => total ((fun k => ((if decide (src g k < g_input g)%nat then value fuel (src g k) else sig (value fuel (src g k))) * wgt g k)%R) <$> live g v) end.
Lemma value_stable f : forall f' v d, dist g v d -> n - d < f -> n - d < f' -> value f v = value f' v.
Proof using HG Hw Ht Hinp.
  induction f as [|f IH]; intros f' v d Hd Hf Hf'; [lia|]. destruct f' as [|f']; [lia|]. cbn [value]. destruct (decide (v < g_input g)); [done|]. f_equal. apply list_fmap_ext. intros i k Hk.
  apply elem_of_list_lookup_2 in Hk. assert (Hd' : dist g (src g k) (S d)) by (by econstructor). pose proof (dist_bound N g Hg Hforest _ _ Hd') as Hb.
  rewrite (IH f' (src g k) (S d)) by (done || lia). done.
Qed.
Lemma index_exists : exists V, (forall v, v < g_input g -> inputs !! v = Some (V v)) /\ forall v d, dist g v d -> g_input g <= v -> V v = total (contrib sig g V <$> live g v).
Proof using HG Hw Hinp Ht.
  exists (value (S n)). split.
  - intros v Hv. cbn [value]. rewrite decide_True by done. by destruct (lookup_lt_is_Some_2 inputs v ltac:(lia)) as [x ->].
  - intros v d Hd Hv. cbn [value]. rewrite decide_False by lia. f_equal. apply list_fmap_ext. intros i k Hk. apply elem_of_list_lookup_2 in Hk. unfold contrib, signal_.
    assert (Hd' : dist g (src g k) (S d)) by (by econstructor). pose proof (dist_bound N g Hg Hforest _ _ Hd') as Hb.
    rewrite (value_stable n (S n) (src g k) (S d)) by (done || lia). done.
Qed.
Lemma solution_exists : exists val, solves g sig inputs val.
Proof using HG Hw Hinp Ht.
  destruct index_exists as (V & H1 & H2).
  assert (Hval : exists val, forall v, v < n -> val (name v) = V v).
  { exists (fun a => match list_find (fun v => name v = a) (seq 0 n) with Some (_, v) => V v | None => 0%R end). intros v Hv.
    destruct (list_find (fun u => name u = name v) (seq 0 n)) as [[i u]|] eqn:E.
    - apply list_find_Some in E as (Hu & Hn & _). apply elem_of_list_lookup_2, elem_of_seq in Hu. apply name_inj in Hn; [by subst|lia|done].
    - apply list_find_None in E. rewrite list.Forall_forall in E. exfalso. apply (E v); [apply elem_of_seq; lia|done]. }
  destruct Hval as (val & Hval). exists val. split.
  - intros i Hi. destruct (name_base i ltac:(lia)) as [E Hn]. rewrite <- E, Hval by done. auto.
  - intros b Hb Hnb. apply leads_dist in Hb as (v & d & Hd & <-). pose proof (dist_lt N g Hg v d Hd) as Hn. exists (entry <$> live g v). split; [by apply entries|]. apply weighted_term.
    rewrite Hval by done. rewrite (H2 v d Hd) by (rewrite name_input in Hnb by done; lia). f_equal. rewrite <- list_fmap_compose. apply list_fmap_ext. intros i k Hk. apply elem_of_list_lookup_2 in Hk.
    cbn. rewrite (term_contrib sig val k v Hk). destruct (live_facts N g Hg k v Hk) as (_ & Hs & _). unfold contrib, signal_. by rewrite Hval.
Qed.
End exist.
End conv.

(** ** The same of a genome with the same genes *)
Section same.
Context (g g' : genome R) (Ei : g_input g' = g_input g) (Eo : g_output g' = g_output g) (Hh : forall num a b e w, has_gene g' num a b e w <-> has_gene g num a b e w).
Lemma leads_same b : leads g' b <-> leads g b.
Proof using Ei Eo Hh.
  split; induction 1 as [o Ho|num a b w H Hl IH].
  - apply leads_out. unfold an_output in *. by rewrite <- Ei, <- Eo. - eapply leads_step; [by apply Hh|done].
  - apply leads_out. unfold an_output in *. by rewrite Ei, Eo. - eapply leads_step; [by apply Hh|done].
Qed.
Lemma tree_same : tree_shaped g -> tree_shaped g'.
Proof using Ei Hh. intros H num num' a b b' w w' Ha H1 H2. apply Hh in H1, H2. eapply H; [|exact H1|exact H2]. unfold an_input in *. by rewrite <- Ei. Qed.
Lemma fed_same : no_dead_start g -> no_dead_start g'.
Proof using Ei Eo Hh.
  intros H b Hb Hi Ho. unfold an_input, an_output in *. destruct (H b) as (num & a & w & H'); [by apply leads_same| | |].
  - unfold an_input. by rewrite <- Ei. - unfold an_output. by rewrite <- Ei, <- Eo. - exists num, a, w. by apply Hh.
Qed.
Lemma solves_same sig inputs val : solves g sig inputs val -> solves g' sig inputs val.
Proof using Ei Eo Hh.
  intros [H1 H2]. split; [by rewrite Ei|]. intros b Hb Hi. unfold an_input in Hi. destruct (H2 b) as (l & [Hl1 Hl2] & Hx); [by apply leads_same|unfold an_input; by rewrite <- Ei|].
  exists l. split; [split; [done|]; intros num a w; by rewrite Hl2, Hh|]. clear -Hx Ei. induction Hx as [|num a w l y x Hs Hx IH]; [constructor|]. constructor; [|done]. unfold sent, an_input in *. by rewrite Ei.
Qed.
End same.
