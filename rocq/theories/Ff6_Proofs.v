From Verif Require Import Base BaseLemmas Neat_Model Neat_Spec Mcts_Model Ff_Model Ff_Proofs Ff2_Proofs Ff3_Proofs Ff4_Proofs.
Open Scope nat_scope.

(** * Genomes in which every hidden node feeds one node *)
Section forest.
Context {F : Type} (N : nat) (g : genome F) (Hg : okg N g).
Notation n := (length (g_nodes g)). Notation nc := (length (g_conns g)).

(** distance from the outputs *)
Inductive dist : nat -> nat -> Prop :=
| d_out o : g_input g <= o < g_input g + g_output g -> dist o 0
| d_step v d k : dist v d -> k ∈ live g v -> dist (src g k) (S d).

Lemma dist_lt v d : dist v d -> v < n.
Proof using Hg. intros H. destruct H as [o Ho|v d k H Hk]; [pose proof (ok_size _ _ Hg); lia|]. by destruct (live_facts N g Hg k v Hk) as (_ & ? & _). Qed.

Context (Hforest : forall k k', k ∈ live g (dst g k) -> k' ∈ live g (dst g k') -> src g k = src g k' -> g_input g <= src g k -> k = k').

Lemma src_not_out k v : k ∈ live g v -> ~ (g_input g <= src g k < g_input g + g_output g).
Proof using Hg. intros H. apply (live_in N g Hg) in H as (c & Hc & _). unfold src. rewrite Hc. by destruct (ok_conn _ _ Hg k c Hc) as (_ & _ & ?). Qed.
Lemma dist_fun v d : dist v d -> g_input g <= v -> forall d', dist v d' -> d = d'.
Proof using Hg Hforest.
  induction 1 as [o Ho|v d k Hd IH Hk]; intros Hv d' H'.
  - inversion H' as [|w e k' Hd' Hk' E]; [done|]. exfalso. apply (src_not_out k' w Hk'). lia.
  - remember (src g k) as z eqn:Ez. inversion H' as [|w e k' Hd' Hk' E Ee]; subst.
    + exfalso. apply (src_not_out k v Hk). lia.
    + destruct (live_facts N g Hg k v Hk) as (Q1 & _ & Hr & _). destruct (live_facts N g Hg k' w Hk') as (Q2 & _).
      assert (k = k') as <- by (apply Hforest; [by rewrite Q1|by rewrite Q2|done|done]). f_equal. rewrite Q1 in Q2. subst w. apply IH; [lia|done].
Qed.

Lemma dist_walk v d : dist v d -> exists o l, g_input g <= o < g_input g + g_output g /\ walk g (fun _ => True) o l v /\ length l = d /\ forall i x, l !! i = Some x -> dist x i.
Proof.
  induction 1 as [o Ho|v d k Hd (o & l & Ho & Hw & El & Hl) Hk].
  - exists o, []. split; [done|]. split; [constructor|]. done.
  - exists o, (l ++ [v]). split; [done|]. split; [eapply walk_app; [done|]; apply (w_cons _ _ v k); [done|done|constructor]|].
    split; [rewrite app_length; cbn; lia|]. intros i x Hx. apply lookup_app_Some in Hx as [Hx|[Hi Hx]]; [by apply Hl|].
    assert (i = length l) as -> by (apply lookup_lt_Some in Hx; cbn in Hx; lia). rewrite Nat.sub_diag in Hx. cbn in Hx. injection Hx as <-. by rewrite El.
Qed.
Lemma dist_simple v d : dist v d -> exists o l, g_input g <= o < g_input g + g_output g /\ walk g (fun _ => True) o l v /\ length l = d /\ NoDup l /\ (g_input g <= v -> v ∉ l).
Proof using Hg Hforest.
  intros Hd. destruct (dist_walk v d Hd) as (o & l & Ho & Hw & El & Hl). exists o, l. split; [done|]. split; [done|]. split; [done|].
  pose proof (walk_nodes N g Hg _ _ _ _ Hw) as Hr. split.
  - apply NoDup_alt. intros i j x Hi Hj. apply (dist_fun x i); [by apply Hl| |by apply Hl]. by apply (Forall_lookup_1 _ _ _ _ Hr) in Hi as [? _].
  - intros Hv Hin. apply elem_of_list_lookup in Hin as [i Hi]. pose proof (lookup_lt_Some _ _ _ Hi). pose proof (dist_fun v d Hd Hv i (Hl i v Hi)). lia.
Qed.
Lemma dist_bound v d : dist v d -> d <= n.
Proof using Hg Hforest.
  intros Hd. destruct (dist_simple v d Hd) as (o & l & _ & Hw & <- & Hnd & _). rewrite <- (seq_length n 0). apply submseteq_length. apply NoDup_submseteq; [done|].
  intros x Hx. apply elem_of_seq. pose proof (walk_nodes N g Hg _ _ _ _ Hw) as Hr. apply (proj1 (list.Forall_forall _ _) Hr) in Hx as [_ ?]. lia.
Qed.

(** paths through a given connection *)
Lemma walk_ext (Q : path -> Prop) k v l : forall m u, walk g (fun _ => True) u l v -> u < n -> NoDup (l ++ [v]) -> (forall x, x ∈ l ++ [v] -> m !! nmb g x <> Some true) -> k ∈ live g v ->
  (forall m', length m' = length m -> exists q, bpath g m' (src g k) q /\ Q q) -> N <= length m ->
  exists p q, bpath g m u p /\ k ∈ p.1.2 /\ Q q /\ p.2 = q.2 /\ list.last p.1.1 = list.last q.1.1 /\ q.1.1 <> [].
Proof using Hg.
  assert (Hne : forall m h q, bpath g m h q -> q.1.1 <> []) by (intros m h q H; inversion H; done).
  induction l as [|x l IH]; intros m u Hw Hu Hnd Hun Hk HQ Hm.
  - inversion Hw; subst. destruct (HQ (<[nmb g v:=true]> m)) as (q & Hq & HQq); [by rewrite insert_length|]. exists (ext v k q), q.
    destruct (live_facts N g Hg k v Hk) as (_ & _ & Hr & _).
    split; [constructor; [lia|apply Hun; left|done|done]|]. split; [left|]. split; [done|]. split; [done|]. pose proof (Hne _ _ _ Hq) as Hn. split; [|done].
    cbn. by destruct (q.1.1).
  - inversion Hw as [|? k' ? ? _ Hk' Hw']; subst. cbn in Hnd. apply list.NoDup_cons in Hnd as [Hx Hnd]. destruct (live_facts N g Hg k' x Hk') as (_ & Hs & Hr & _).
    destruct (IH (<[nmb g x := true]> m) (src g k') Hw' Hs Hnd) as (p & q & Hp & Hin & HQq & E2 & El & Hn).
    + intros y Hy. rewrite list_lookup_insert_ne; [apply Hun; by right|]. intros E. apply (num_inj N g Hg) in E; [by subst|lia|].
      apply elem_of_app in Hy as [Hy|Hy].
      * pose proof (walk_nodes N g Hg _ _ _ _ Hw') as HF. by apply (proj1 (list.Forall_forall _ _) HF) in Hy as [_ ?].
      * apply elem_of_list_singleton in Hy as ->. destruct (live_facts N g Hg k v Hk) as (_ & _ & ? & _). lia.
    + done.
    + intros m' Hm'. apply HQ. by rewrite Hm', insert_length.
    + by rewrite insert_length.
    + exists (ext x k' p), q. split; [constructor; [lia|apply Hun; left|done|done]|]. split; [by right|]. split; [done|]. split; [done|]. split; [|done].
      cbn. rewrite <- El. pose proof (Hne _ _ _ Hp) as Hn'. by destruct (p.1.1).
Qed.
Lemma bpath_total m h : length m = N -> h < n -> exists q, bpath g m h q.
Proof using Hg.
  intros Hm Hh. destruct (recon_ok N g Hg (S (falses m)) m h 1 []) as [Hne _]; [lia|done|done|lia|].
  destruct (paths (S (falses m)) g m h) as [|q l] eqn:E; [done|]. exists q. apply (paths_iff N g Hg (S (falses m))); [done|done|lia|]. rewrite E. left.
Qed.
Lemma out_index o : g_input g <= o < g_input g + g_output g -> exists i, i < g_output g /\ o = i + g_input g.
Proof. intros H. exists (o - g_input g). lia. Qed.

Lemma used_iff k : used N g k <-> k ∈ live g (dst g k) /\ exists d, dist (dst g k) d.
Proof using Hg Hforest.
  split.
  - intros H. split; [by apply (used_live N g Hg)|]. destruct H as (i & p & Hi & Hp & Hin).
    destruct (bpath_walk N g Hg _ _ _ _ Hp (m0_len N) (out_lt N g Hg i Hi) Hin) as (_ & l & Hw & _).
    assert (Ho : dist (i + g_input g) 0) by (constructor; lia). clear Hp Hin. revert Ho. generalize 0. induction Hw as [u|u k' l v _ Hk' Hw IH]; intros d Hd; [eauto|].
    apply (IH (S d)). by econstructor.
  - intros [Hk (d & Hd)]. destruct (dist_simple _ _ Hd) as (o & l & Ho & Hw & _ & Hnd & Hv). destruct (out_index o Ho) as (i & Hi & ->).
    destruct (live_facts N g Hg k _ Hk) as (_ & Hs & Hr & _).
    destruct (walk_ext (fun _ => True) k (dst g k) l (m0 N) (i + g_input g) Hw (out_lt N g Hg i Hi)) as (p & q & Hp & Hin & _).
    + apply list.NoDup_app. split; [done|]. split; [|apply list.NoDup_singleton]. intros x Hx Hx'. apply elem_of_list_singleton in Hx' as ->. apply Hv; [lia|done].
    + intros x _. apply m0_un.
    + done.
    + intros m' Hm'. destruct (bpath_total m' (src g k)) as [q Hq]; [rewrite Hm'; apply replicate_length|done|]. eauto.
    + apply m0_len.
    + by exists i, p.
Qed.
Lemma used_input k : used N g k -> src g k < g_input g -> ends N g (src g k).
Proof using Hg Hforest.
  intros Hu Hs. pose proof (proj1 (used_iff k) Hu) as [Hk (d & Hd)]. destruct (dist_simple _ _ Hd) as (o & l & Ho & Hw & _ & Hnd & Hv). destruct (out_index o Ho) as (i & Hi & ->).
  destruct (live_facts N g Hg k _ Hk) as (_ & _ & Hr & _).
  destruct (walk_ext (fun q => q = ([src g k], [], 0%Z)) k (dst g k) l (m0 N) (i + g_input g) Hw (out_lt N g Hg i Hi)) as (p & q & Hp & Hin & -> & E2 & El & _).
  - apply list.NoDup_app. split; [done|]. split; [|apply list.NoDup_singleton]. intros x Hx Hx'. apply elem_of_list_singleton in Hx' as ->. apply Hv; [lia|done].
  - intros x _. apply m0_un.
  - done.
  - intros m' _. eexists. split; [by constructor|done].
  - apply m0_len.
  - exists i, p. rewrite E2, El. cbn. done.
Qed.

(** no list ends at a repeated node *)
Lemma no_loops m h p d : bpath g m h p -> dist h d -> (forall x, x < n -> m !! nmb g x = Some true -> exists d', d' < d /\ dist x d') -> N <= length m -> p.2 <> 1%Z.
Proof using Hg Hforest.
  intros Hp. revert d. induction Hp as [m h|m h Hi Hm|m h|m h k p Hi Hm Hk Hp IH]; intros d Hd HM Lm; [done| |done|].
  - destruct (HM h (dist_lt h d Hd) Hm) as (d' & Hlt & Hd'). pose proof (dist_fun h d Hd ltac:(lia) d' Hd'). lia.
  - apply (IH (S d)); [by econstructor| |by rewrite insert_length]. intros x Hx Hm'. destruct (decide (nmb g h = nmb g x)) as [E|E].
    + apply (num_inj N g Hg) in E; [|by eapply dist_lt|done]. subst x. exists d. split; [lia|done].
    + rewrite list_lookup_insert_ne in Hm' by done. destruct (HM x Hx Hm') as (d' & ? & ?). exists d'. split; [lia|done].
Qed.
Lemma no_loop_lists l : isl N g l -> f_flag l <> 1%Z.
Proof using Hg Hforest.
  intros (i & p & Hi & Hp & ->). cbn. apply (no_loops _ _ _ 0 Hp); [constructor; lia| |apply m0_len]. intros x _ H. by apply m0_un in H.
Qed.
Lemma ends_input v : ends N g v -> v < g_input g.
Proof using Hg Hforest.
  intros He. apply ends_isl in He as (l & Hl & Hv & Hf). pose proof (no_loop_lists l Hl). destruct (isl_facts N g Hg l Hl) as (_ & _ & _ & _ & w & Hw & _ & Hc).
  rewrite Hv in Hw. injection Hw as <-. destruct Hc as [[_ ?]|[[? _]|[? _]]]; done.
Qed.
Lemma isl_end_dist l v : isl N g l -> node_at l (f_size l - 1) = Some v -> exists d, dist v d.
Proof using Hg.
  intros (i & p & Hi & Hp & ->) Hv. rewrite size_pre, node_pre in Hv. assert (Hl : list.last p.1.1 = Some v) by (rewrite list.last_lookup, <- Hv; f_equal; lia).
  assert (Ho : dist (i + g_input g) 0) by (constructor; lia). clear Hv. revert Hl Ho. generalize 0. induction Hp as [m h|m h|m h|m h k p Hh Hm Hk Hp IH]; intros d Hl Hd.
  - cbn in Hl. injection Hl as <-. eauto. - cbn in Hl. injection Hl as <-. eauto. - cbn in Hl. injection Hl as <-. eauto.
  - apply (IH (S d)); [|by econstructor]. cbn in Hl. assert (Hne : p.1.1 <> []) by (by inversion Hp). by destruct (p.1.1).
Qed.
End forest.
