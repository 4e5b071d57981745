From Coq Require Import Reals Lra.
From Verif Require Import Base BaseLemmas Neat_Model Neat_Spec Mcts_Model Ff_Model Ff_Proofs Ff2_Proofs Ff3_Proofs Ff4_Proofs Ff5_Proofs Ff6_Proofs Ff7_Proofs.
Open Scope nat_scope.

Lemma for_pre {S} (f : nat -> S -> option S) (P : nat -> S -> Prop) m s s' :
  for_loop m 0 f s = Some s' -> P 0 s -> (forall i s s', i < m -> f i s = Some s' -> P i s -> P (i + 1) s') -> P m s'.
Proof.
  intros E H0 H. assert (Q : forall m' i s, i + m' = m -> P i s -> for_loop m' i f s = Some s' -> P m s').
  { induction m' as [|m' IH]; intros i t Hi Ht E'.
    - cbn in E'. injection E' as <-. by replace m with i by lia.
    - cbn in E'. apply bind_Some in E' as (t' & E1' & E'). apply (IH (i + 1) t'); [lia| |by replace (i + 1) with (Datatypes.S i) by lia]. apply (H i t); [lia|done|done]. }
  by apply (Q m 0 s).
Qed.

Section values.
Context (sig : R -> R) (N : nat) (g : genome R) (Hg : okg N g).
Notation n := (length (g_nodes g)). Notation nc := (length (g_conns g)).
Context (Hforest : forall k k', k ∈ live g (dst g k) -> k' ∈ live g (dst g k') -> src g k = src g k' -> g_input g <= src g k -> k = k').
Context (Hfed : forall v d, dist g v d -> g_input g + g_output g <= v -> live g v <> []).
Context (V : nat -> R) (HV : forall v d, dist g v d -> g_input g <= v -> V v = total (contrib sig g V <$> live g v)).
Notation inv := (inv sig N g V).

Lemma cut_none lists s : (forall l, l ∈ mjoin lists -> f_flag l <> 1%Z) -> cut_loops g lists s = Some s.
Proof.
  intros Hl. unfold cut_loops.
  match goal with |- for_loop _ _ ?f _ = _ => destruct (for_loop_inv (fun _ s' => s' = s) f (length lists) 0 s) as (s' & -> & ->) end; [done| |done].
  intros i q Hi ->. destruct (lookup_lt_is_Some_2 lists i ltac:(lia)) as [row Er]. rewrite (Er : rd _ _ = Some _). cbn [mbind option_bind].
  match goal with |- context [for_loop _ _ ?f _] => destruct (for_loop_inv (fun _ s' => s' = s) f (length row) 0 s) as (s' & -> & ->) end; [done| |by exists s].
  intros j q Hj ->. destruct (lookup_lt_is_Some_2 row j ltac:(lia)) as [l El]. rewrite (El : rd _ _ = Some _). cbn [mbind option_bind].
  destruct (f_flag l =? 1)%Z eqn:E1'; [|by exists s]. apply Z.eqb_eq in E1'. exfalso. apply (Hl l); [|done]. apply elem_of_list_join. exists row. split; by eapply elem_of_list_lookup_2.
Qed.
Lemma set_values inputs s s' : set_inputs g inputs s = Some s' -> ok g s -> ok g s' /\ e_cf s' = e_cf s /\ e_nf s' = e_nf s /\
  (forall v, v < g_input g -> e_val s' !! v = inputs !! v) /\ (forall v, g_input g <= v -> e_val s' !! v = e_val s !! v).
Proof.
  intros E Ho. unfold set_inputs in E.
  enough (Q : ok g s' /\ e_cf s' = e_cf s /\ e_nf s' = e_nf s /\ (forall v, v < g_input g -> e_val s' !! v = inputs !! v) /\ (forall v, g_input g <= v -> e_val s' !! v = e_val s !! v)) by exact Q.
  refine (for_pre _ (fun i q => ok g q /\ e_cf q = e_cf s /\ e_nf q = e_nf s /\ (forall v, v < i -> e_val q !! v = inputs !! v) /\ (forall v, i <= v -> e_val q !! v = e_val s !! v)) _ _ _ E _ _).
  - split; [done|]. split; [done|]. split; [done|]. split; [lia|done].
  - intros i q q' Hi Eq (Q1 & Q2 & Q3 & Q4 & Q5). cbv beta in Eq. apply bind_Some in Eq as (x & Ex & Eq). unfold put_val in Eq. apply bind_Some in Eq as (l & El & Eq). injection Eq as <-.
    apply wr_inv in El as [Hlt ->]. cbn. split; [unfold ok in *; cbn; by rewrite insert_length|]. split; [done|]. split; [done|]. split.
    + intros v Hv. destruct (decide (i = v)) as [<-|]; [by rewrite list_lookup_insert|]. rewrite list_lookup_insert_ne by done. apply Q4. lia.
    + intros v Hv. rewrite list_lookup_insert_ne by lia. apply Q5. lia.
Qed.

Lemma bpath_conns m h p : bpath g m h p -> length p.1.1 = S (length p.1.2).
Proof. induction 1; cbn; [done|done|done|]. by rewrite IHbpath. Qed.
Lemma passes_dec ls k : passes ls k \/ ~ passes ls k.
Proof.
  assert (Q : passes ls k <-> k ∈ (ls ≫= fun l => omap (conn_at l) (seq 0 (f_size l - 1)))).
  { rewrite elem_of_list_bind. unfold passes. split.
    - intros (l & i & Hl & Hi & Hc). exists l. split; [|done]. apply elem_of_list_omap. exists i. split; [apply elem_of_seq; lia|done].
    - intros (l & Hk & Hl). apply elem_of_list_omap in Hk as (i & Hi & Hc). apply elem_of_seq in Hi. exists l, i. split; [done|]. split; [lia|done]. }
  rewrite Q. destruct (decide (k ∈ (ls ≫= fun l => omap (conn_at l) (seq 0 (f_size l - 1))))); [by left|by right].
Qed.

Theorem forest_value g1 inputs fuel out : copy_genome g1 = Some g -> N < fuel -> (forall v, v < g_input g -> inputs !! v = Some (V v)) ->
  feed_forward real_num sig fuel g1 inputs N = Some out -> out = (fun i => sig (V (i + g_input g) + 1)%R) <$> seq 0 (g_output g).
Proof using Hg Hforest Hfed HV.
  intros Ec Hf Hinp E. unfold feed_forward in E. rewrite Ec in E. cbn [mbind option_bind] in E. rewrite (reconstruct_ok N g Hg) in E by lia. cbn [mbind option_bind] in E.
  set (lists := the_lists N g fuel) in *. cbv zeta in E. change (Ev _ _ _ _) with (start real_num g) in E.
  assert (Hls : forall l, l ∈ mjoin lists -> isl N g l) by (intros l Hl; by apply (lists_isl N g Hg fuel) in Hl; [|lia]).
  rewrite !all_lists_concat in E.
  destruct (mark_ok N g Hg (mjoin lists) (start real_num g) Hls (start_ok real_num g)) as (array & s1 & storing & Em & Ha & Hok1 & Ecf & Evf & _ & Hm & Hst). rewrite Em in E. cbn [mbind option_bind] in E.
  assert (Hmark : forall v, v < n -> ends N g v -> array !! nmb g v = Some true).
  { intros v Hv He. apply Hm; [done|]. apply ends_isl in He as (l & Hl & ? & ?). exists l. split; [|done]. apply (lists_isl N g Hg); [lia|done]. }
  assert (Hmark' : forall v, v < n -> array !! nmb g v = Some true -> v < g_input g).
  { intros v Hv H. apply (Hm v Hv) in H as (l & Hl & Hvl & Hfl). apply (ends_input N g Hg Hforest). eapply isl_ends; [by apply Hls|done|done]. }
  assert (storing = false) as ->. { destruct storing; [|done]. destruct (proj1 Hst eq_refl) as (l & Hl & Hfl). by apply (no_loop_lists N g Hg Hforest l) in Hfl; [|by apply Hls]. }
  destruct (activate_all N g Hg (mjoin lists) s1 Hls Hok1) as (s2 & Ea & Hok2 & Ev2 & _ & Hcf2). rewrite all_lists_concat, Ea in E. cbn [mbind option_bind] in E.
  rewrite cut_none in E by (intros l Hl; apply (no_loop_lists N g Hg Hforest l); by apply Hls). cbn [mbind option_bind] in E.
  apply bind_Some in E as (s4 & E4 & E). destruct (set_values inputs s2 s4 E4 Hok2) as (Hok4 & Ec4 & _ & Hv4 & Hv4').
  assert (Hpass : forall k, passes (mjoin lists) k <-> used N g k).
  { intros k. split.
    - intros (l & i & Hl & Hi & Hc). destruct (isl_facts N g Hg l (Hls l Hl)) as (_ & _ & H & _). destruct (H i Hi) as (k' & Ek & _ & ?). by rewrite Hc in Ek; injection Ek as <-.
    - intros (i & p & Hi & Hp & Hin). exists (pre 1 p). apply elem_of_list_lookup in Hin as [j Hj]. exists j. split; [apply (lists_isl N g Hg); [lia|by exists i, p]|]. rewrite conn_pre. split; [|done].
      rewrite size_pre. apply lookup_lt_Some in Hj. pose proof (bpath_conns _ _ _ Hp). lia. }
  assert (Hno : forall k, e_cf s4 !! k <> Some (-2)%Z).
  { intros k. rewrite Ec4. intros H. destruct (Hcf2 k) as [H1 H2]. assert (Hnp : ~ passes (mjoin lists) k) by (intros Hp; rewrite (H1 Hp) in H; done). rewrite (H2 Hnp), Ecf in H. cbn in H.
    rewrite list_lookup_fmap in H. destruct (g_conns g !! k) as [c|]; [|done]. cbn in H. by destruct (c_flag c). }
  assert (Hs4 : inv [] s4).
  { split; [done|..].
    - intros k. rewrite <- Hpass. unfold todo, done_. split.
      + intros H. left. rewrite Ec4. by apply Hcf2.
      + intros [H|H]; [|by apply Hno in H]. destruct (passes_dec (mjoin lists) k) as [|Hn]; [done|]. exfalso. rewrite Ec4 in H. rewrite (proj2 (Hcf2 k) Hn), Ecf in H. by apply (start_sub real_num g (fun _ => False)) in H.
    - intros v Hv. rewrite Hv4' by lia. rewrite Ev2, Evf. cbn. rewrite lookup_replicate_2 by lia. f_equal. unfold acc_.
      assert (Q : forall l, total ((fun k => if decide (e_cf s4 !! k = Some (-2)%Z) then contrib sig g V k else 0%R) <$> l) = 0%R).
      { induction l as [|k l IH]; [done|]. cbn. unfold total in IH. rewrite decide_False by apply Hno. rewrite IH. lra. }
      by rewrite Q.
    - intros v Hv. rewrite Hv4 by done. by apply Hinp.
    - intros k H. by apply Hno in H.
    - intros v k' k _ _ _ H. by apply Hno in H. }
  apply bind_Some in E as (s5 & E5 & E).
  assert (H5 : inv [] s5 /\ forall k, used N g k -> src g k < g_input g -> done_ s5 k).
  { unfold run_inputs in E5. refine (for_pre _ (fun i q => inv [] q /\ forall k, used N g k -> src g k < i -> done_ q k) _ _ _ E5 _ _); [split; [done|lia]|].
    intros i q q' Hi Eq (Q1 & Q2). cbv beta in Eq. pose proof (ok_size _ _ Hg). destruct (num_lt N g Hg i ltac:(lia)) as (En & Hn & _). rewrite En in Eq. cbn [mbind option_bind] in Eq.
    apply bind_Some in Eq as (b & Eb & Eq). destruct b.
    - apply bind_Some in Eq as ([q1 r1] & Er & Eq). injection Eq as <-. cbn [fst].
      destruct (push sig N g Hg Hforest Hfed V HV array Hmark' fuel q i q1 r1 Er) as (R1' & R2' & R3' & _); [apply (inv_weaken _ _ _ _ []); [done|]; intros y Hy; by apply elem_of_nil in Hy|lia|by left|].
      split; [done|]. intros k Hu Hk. destruct (decide (src g k = i)) as [Ek|]; [by apply R3'|]. apply R2'. apply Q2; [done|lia].
    - injection Eq as <-. split; [done|]. intros k Hu Hk. destruct (decide (src g k = i)) as [Ek|]; [|apply Q2; [done|lia]]. exfalso.
      pose proof (used_input N g Hg Hforest k Hu ltac:(lia)) as He. rewrite Ek in He. apply Hmark in He; [|lia]. unfold rd in Eb. congruence. }
  destruct H5 as [Hs5 Hd5]. apply bind_Some in E as (s6 & E6 & E).
  assert (H6 : inv [] s6 /\ forall k, done_ s5 k -> done_ s6 k).
  { unfold run_ends in E6. rewrite all_lists_concat in E6. refine (each_pre _ (fun _ q => inv [] q /\ forall k, done_ s5 k -> done_ q k) _ _ _ E6 _ _); [done|].
    intros l1 l l2 q q' El Eq (Q1 & Q2). cbv beta in Eq. destruct (f_flag l =? -1)%Z; [|by injection Eq as <-]. apply bind_Some in Eq as (e & Ee & Eq). apply bind_Some in Eq as ([q1 r1] & Er & Eq). injection Eq as <-. cbn [fst].
    assert (Hl : isl N g l) by (apply Hls; rewrite El; apply elem_of_app; right; left). destruct (isl_end_dist N g Hg l e Hl Ee) as (d & Hd).
    destruct (push sig N g Hg Hforest Hfed V HV array Hmark' fuel q e q1 r1 Er) as (R1' & R2' & _); [apply (inv_weaken _ _ _ _ []); [done|]; intros y Hy; by apply elem_of_nil in Hy|by eapply dist_lt|by right; exists d|].
    auto. }
  destruct H6 as [Hs6 Hd6]. cbn [mbind option_bind] in E.
  assert (ALL : forall j k d, n - d <= j -> used N g k -> dist g (dst g k) d -> done_ s6 k).
  { induction j as [|j IH]; intros k d Hj Hu Hd; destruct (le_lt_dec (g_input g) (src g k)) as [Hi|Hi]; try (by apply Hd6, Hd5).
    all: pose proof (src_dist N g Hg k d Hu Hd) as Hd'; pose proof (dist_bound N g Hg Hforest _ _ Hd') as Hb; try lia.
    pose proof (src_not_out N g Hg k _ (used_live N g Hg k Hu)) as Hno'. pose proof (Hfed _ _ Hd' ltac:(lia)) as Hne. destruct (live g (src g k)) as [|k' l] eqn:El; [done|].
    assert (Hk' : k' ∈ live g (src g k)) by (rewrite El; left). destruct (live_facts N g Hg _ _ Hk') as (Ek' & _).
    assert (Hu' : used N g k') by (apply (used_iff N g Hg Hforest); rewrite Ek'; eauto).
    apply (iv_out _ _ _ _ _ _ Hs6 (src g k) k' k); try done; [intros H; by apply elem_of_nil in H|]. apply (IH k' (S d)); [lia|done|by rewrite Ek']. }
  assert (Hfull : forall i, i < g_output g -> e_val s6 !! (i + g_input g) = Some (V (i + g_input g))).
  { intros i Hi. assert (Hd : dist g (i + g_input g) 0) by (constructor; lia). apply (full_val sig N g Hg V HV [] s6 _ 0 Hs6 Hd); [lia|]. intros k Hk. destruct (live_facts N g Hg _ _ Hk) as (Ek & _).
    apply (ALL (n - 0) k 0); [lia| |by rewrite Ek]. apply (used_iff N g Hg Hforest). rewrite Ek. eauto. }
  assert (G : mapM (fun i => x ← rd (e_val s6) (i + g_input g); Some (sig (x + 1)%R)) (seq 0 (g_output g)) = Some ((fun i => sig (V (i + g_input g) + 1)%R) <$> seq 0 (g_output g))).
  { apply mapM_Some. apply Forall2_fmap_r, Forall_Forall2_diag. apply list.Forall_forall. intros i Hi. apply elem_of_seq in Hi. rewrite (Hfull i ltac:(lia) : rd _ _ = _). done. }
  change (n_z real_num 1) with 1%R in E. cbn [n_add real_num] in E. rewrite G in E. by injection E as <-.
Qed.
End values.
