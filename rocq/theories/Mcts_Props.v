(** C43: the counts, values and policy of the tree search.

    A history is a list of draws: what the networks and the random generator gave to each call of visit_node from the root.  Theorems that
    speak of any [F] and [O : num F] hold for every arithmetic, that of floats with infinities and NaNs included; the others are over the
    exact reals. *)
From Coq Require Import Reals Lra.
From Verif Require Import RealSum Sort_Model Mcts_Model Mcts_Spec Mcts_Proofs Mcts2_Proofs Mcts3_Proofs Mcts4_Proofs BaseLemmas.
Open Scope nat_scope.

(** ** Counts *)
(** After any history the nodes are a tree with as many edges per node as actions, every node below the root counts one visit for its
    creation plus those of its children, and the children of the root count the visits of the history *)
Theorem C43_counts_consistent F (O : num F) policy k q0 ws t : 0 < k_depth k -> visits O k q0 (init_mcts O policy) ws = Some t ->
  is_tree (length policy) (k_depth k) t /\ balanced (k_depth k) t /\ children_count t 0 = length ws /\ length (t_nodes t) <= 1 + length ws.
Proof.
  intros HD H. destruct (init_tree O (length policy) (k_depth k) policy eq_refl) as (T & B & _ & K).
  destruct (visits_balanced O (length policy) k q0 ws _ _ T B HD H) as (T' & B' & _ & K' & _ & L). cbn in L. rewrite K in K'. split; [done|]. split; [done|]. lia.
Qed.
Print Assumptions C43_counts_consistent.
(** The next visit adds one to the count of each node between the root and the node it evaluates, and to no other *)
Theorem C43_visit_counts_its_path F (O : num F) policy k q0 ws w t t' : 0 < k_depth k -> visits O k q0 (init_mcts O policy) ws = Some t ->
  visit O k q0 t w = Some t' ->
  exists r, t_returned t' = Some r /\ r <> 0 /\ forall i, i <> 0 -> (below t' i r -> count t' i = S (count t i)) /\ (~ below t' i r -> count t' i = count t i).
Proof.
  intros HD H Hv. destruct (C43_counts_consistent F O policy k q0 ws t HD H) as (T & B & _).
  destruct (visit_balanced O _ k q0 w t t' T B HD Hv) as (_ & _ & C & K & _ & _ & r & Hr & Hp). exists r. split; [done|]. split; [|done].
  intros ->. destruct (children_count t' 0) eqn:E; [lia|].
  (* a child of the root was counted, so it is above the root *)
  pose proof (it_root _ _ _ T) as H0. unfold depth_of in H0. apply fmap_Some in H0 as (x & Hx & Hdx). symmetry in Hdx.
  unfold visit in Hv. apply fmap_Some in Hv as ([t1 v] & Hv & ->). cbn [fst] in *.
  destruct (visit_node_post O _ k _ _ _ _ _ _ _ _ _ T Hx Hdx Hv) as (T' & _ & P & Hr' & Hc & HP & _). rewrite Hr' in Hr. injection Hr as Hr.
  assert (HPn : P <> []) by (intros ->; destruct HP as [_ HP]; specialize (HP eq_refl); lia).
  pose proof (chain_lt _ _ _ _ _ T' Hc _ (final_elem 0 P HPn)). lia.
Qed.
Print Assumptions C43_visit_counts_its_path.
(** Action a was taken as often as the draws of the history choose it, and visits are defined as long as their draws choose an action *)
Theorem C43_actions_counted F (O : num F) policy k q0 ws t : 0 < k_depth k -> visits O k q0 (init_mcts O policy) ws = Some t ->
  exists acts, mapM (fun w => root_choice O k w (Node 0 0 (n_z O 0) (n_z O 0) (n_z O 0) (n_z O 0) (fresh_edges policy))) ws = Some acts
  /\ forall a, taken t a = length (filter (fun b => b = a) acts).
Proof.
  intros HD H. destruct (init_tree O (length policy) (k_depth k) policy eq_refl) as (T & B & _ & _).
  destruct (visits_taken O _ k q0 ws _ _ _ T B HD eq_refl H) as (acts & Ha & Ht). exists acts. split; [done|]. intros a. rewrite Ht.
  assert (Hz : taken (init_mcts O policy) a = 0); [|lia]. unfold taken, out, init_mcts. cbn. unfold fresh_edges. rewrite list_lookup_fmap. by destruct (policy !! a).
Qed.
Print Assumptions C43_actions_counted.
Theorem C43_visits_defined F (O : num F) policy k q0 ws : 0 < k_depth k ->
  Forall (fun w => length (w_policy w) = length policy /\
    exists a, root_choice O k w (Node 0 0 (n_z O 0) (n_z O 0) (n_z O 0) (n_z O 0) (fresh_edges policy)) = Some a /\ a < length policy) ws ->
  exists t, visits O k q0 (init_mcts O policy) ws = Some t.
Proof.
  intros HD HF. destruct (init_tree O (length policy) (k_depth k) policy eq_refl) as (T & B & _ & _).
  by apply (visits_defined O (length policy) k q0 ws _ _ T B HD eq_refl).
Qed.
Print Assumptions C43_visits_defined.

(** ** Values *)
(** Every value below the root is between q_min and q_max, and the value of a node at the maximum depth is its reward plus its predicted value *)
Theorem C43_values_bounded policy k q0 ws t : 0 < k_depth k -> visits real_num k q0 (init_mcts real_num policy) ws = Some t ->
  forall i x, 0 < i -> t_nodes t !! i = Some x -> (t_qmin t <= d_q x <= t_qmax t)%R /\ (d_depth x = k_depth k -> d_q x = d_reward x + d_v x)%R.
Proof.
  intros HD H i x Hi Hx. destruct (init_tree real_num (length policy) (k_depth k) policy eq_refl) as (T & B & _ & _).
  destruct (visits_bounds (length policy) k q0 ws (init_mcts real_num policy) t) as (HB & HV & _); try done.
  - intros [|j] q Hj; [lia|]. by unfold value.
  - intros [|j] y Hj; [lia|]. done.
  - split; [apply (HB i); [done|lia|]; unfold value; by rewrite Hx|]. intros Hd. by apply (HV i).
Qed.
Print Assumptions C43_values_bounded.
(** The value a visit computes is never backed up to the parent of the node it evaluates: C43 as stated is refuted for node values *)
Theorem C43_parent_value_refuted F (O : num F) policy k q0 ws w t t' r n a : 0 < k_depth k -> visits O k q0 (init_mcts O policy) ws = Some t ->
  visit O k q0 t w = Some t' -> t_returned t' = Some r -> out t' n a = Some r -> value t' n = value t n.
Proof. intros HD H Hv. destruct (C43_counts_consistent F O policy k q0 ws t HD H) as (T & _). by apply (visit_parent O (length policy) k q0 w). Qed.
Print Assumptions C43_parent_value_refuted.
(** The count of the root stays 0 *)
Theorem C43_root_count_refuted F (O : num F) policy k q0 ws t : 0 < k_depth k -> visits O k q0 (init_mcts O policy) ws = Some t -> count t 0 = 0.
Proof.
  intros HD H. destruct (init_tree O (length policy) (k_depth k) policy eq_refl) as (T & B & C & _).
  destruct (visits_balanced O (length policy) k q0 ws _ _ T B HD H) as (_ & _ & C' & _). lia.
Qed.
Print Assumptions C43_root_count_refuted.

(** ** The choice of actions *)
(** With probabilities in [0,1) at the root the first action is taken, or n->edges[-1] is read *)
Theorem C43_root_choice_refuted k w x p0 : length (w_noise w) = length (d_edges x) -> (0 <= k_eps k <= 1)%R -> Forall (fun s => 0 <= s < 1)%R (w_noise w) ->
  Forall (fun e => 0 <= e_prior e < 1)%R (d_edges x) -> root_probs real_num k w x !! 0 = Some p0 ->
  root_choice real_num k w x = if decide (p0 <= w_rnd w)%R then Some 0 else None.
Proof. intros Hl He Hn Hp H0. apply root_choice_small; [done|by apply root_probs_small|done]. Qed.
Print Assumptions C43_root_choice_refuted.
(** so no history takes another action than the first *)
Theorem C43_other_actions_refuted policy k q0 ws t : 0 < k_depth k -> visits real_num k q0 (init_mcts real_num policy) ws = Some t ->
  (0 <= k_eps k <= 1)%R -> Forall (fun p => 0 <= p < 1)%R policy ->
  Forall (fun w => length (w_noise w) = length policy /\ Forall (fun s => 0 <= s < 1)%R (w_noise w)) ws ->
  taken t 0 = length ws /\ forall a, a <> 0 -> taken t a = 0.
Proof.
  intros HD H He Hp Hw. destruct (C43_actions_counted _ _ _ _ _ _ _ HD H) as (acts & Ha & Ht).
  assert (Hall : Forall (fun a => a = 0) acts).
  { apply mapM_Some in Ha. clear -Hw He Hp Ha. induction Ha as [|w a ws acts Ha Has IH]; [constructor|]. apply list.Forall_cons in Hw as [[Hl Hn] Hw]. constructor; [|by apply IH].
    cbn in Ha. set (x := Node 0 0 0%R 0%R 0%R 0%R (fresh_edges policy)) in *.
    assert (Hlx : length (d_edges x) = length policy) by (cbn; unfold fresh_edges; by rewrite fmap_length).
    assert (Hpx : Forall (fun e => 0 <= e_prior e < 1)%R (d_edges x)).
    { cbn. unfold fresh_edges. apply Forall_fmap. eapply list.Forall_impl; [exact Hp|]. done. }
    destruct (root_probs real_num k w x !! 0) as [p0|] eqn:E.
    - rewrite (C43_root_choice_refuted k w x p0) in Ha by (done || by rewrite Hlx). case_decide; [|done]. by injection Ha.
    - exfalso. assert (Hlp : length (root_probs real_num k w x) = 0) by (apply lookup_ge_None_1 in E; lia).
      apply nil_length_inv in Hlp. unfold root_choice in Ha. rewrite Hlp in Ha. cbn [mapM mbind option_bind mret option_ret] in Ha.
      assert (Hz : length (d_edges x) = 0).
      { unfold root_probs in Hlp. apply (f_equal length) in Hlp. rewrite zip_with_length in Hlp. cbn [length] in Hlp. lia. }
      rewrite Hz in Ha. done. }
  assert (Hlen : length acts = length ws) by (symmetry; by eapply mapM_length). rewrite <- Hlen. split.
  - rewrite Ht. clear -Hall. induction Hall as [|a acts -> Hall IH]; [done|]. rewrite filter_cons_True by done. cbn. by rewrite IH.
  - intros a Hna. rewrite Ht. clear -Hall Hna. induction Hall as [|b acts -> Hall IH]; [done|]. rewrite filter_cons_False by done. done.
Qed.
Print Assumptions C43_other_actions_refuted.
(** Below the root an unvisited node takes its first action *)
Theorem C43_first_choice F (O : num F) k t qhat (x : node) : (forall u, n_lt O u u = false) -> d_edges x <> [] -> Forall (fun e => e_out e = None) (d_edges x) ->
  ucb_choice O k t qhat x = Some 0.
Proof. apply ucb_choice_fresh. Qed.
Print Assumptions C43_first_choice.
(** Two actions of the same prior and count: the second is taken when its normalised value is above the value of the first, which is not
    normalised; when that is at least 1 the first action is taken however good the second *)
Theorem C43_normalisation_refuted k (t : rtree) qhat x e0 e1 c0 c1 y0 y1 : d_edges x = [e0; e1] -> e_prior e0 = e_prior e1 ->
  e_out e0 = Some c0 -> e_out e1 = Some c1 -> t_nodes t !! c0 = Some y0 -> t_nodes t !! c1 = Some y1 -> d_count y0 = d_count y1 ->
  ucb_choice real_num k t qhat x = Some (if decide (d_q y0 < (d_q y1 - t_qmin t) / (t_qmax t - t_qmin t))%R then 1 else 0)
  /\ ((t_qmin t <= d_q y1 <= t_qmax t)%R -> (t_qmin t < t_qmax t)%R -> (1 <= d_q y0)%R -> ucb_choice real_num k t qhat x = Some 0).
Proof.
  intros He Hpr H0 H1 Hy0 Hy1 Hc.
  assert (HE : ucb_choice real_num k t qhat x = Some (if decide (d_q y0 < (d_q y1 - t_qmin t) / (t_qmax t - t_qmin t))%R then 1 else 0)).
  { unfold ucb_choice. rewrite He. cbn [length for_loop]. unfold rd, ucb. rewrite H0. unfold rd. rewrite Hy0. cbn [lookup list_lookup mbind option_bind]. rewrite H1, Hy1.
    cbn [mbind option_bind fst snd].
    assert (Hb : bonus real_num k e0 y0 = bonus real_num k e1 y1) by (unfold bonus; by rewrite Hpr, Hc). rewrite Hb. cbn [n_lt n_add n_sub n_div real_num].
    case_decide as E; case_bool_decide as E2; try done; lra. }
  split; [done|]. intros Hq Hlt Hge. rewrite HE. rewrite decide_False; [done|]. apply Rle_not_lt. eapply Rle_trans; [|exact Hge].
  apply (Rmult_le_reg_r (t_qmax t - t_qmin t)); [lra|]. unfold Rdiv. rewrite Rmult_assoc, Rinv_l by lra. lra.
Qed.
Print Assumptions C43_normalisation_refuted.

(** ** The policy *)
(** For every temperature above 0, after any history with a visit, the policy is a distribution on the actions that were taken *)
Theorem C43_policy_is_distribution policy k q0 ws t T t' p : 0 < k_depth k -> ws <> [] -> visits real_num k q0 (init_mcts real_num policy) ws = Some t ->
  (0 < T)%R -> get_mcts_probability t T = Some (t', p) ->
  length p = length policy /\ suml p = 1%R /\ (forall a x, p !! a = Some x -> (0 <= x <= 1)%R /\ ((0 < x)%R <-> 0 < taken t a)).
Proof.
  intros HD Hws H HT Hp. set (A := length policy). destruct (C43_counts_consistent _ _ _ _ _ _ _ HD H) as (Tr & B & K & _). fold A in Tr.
  destruct (policy_spec A _ T t t' p Tr Hp) as (Hre & Hc & _ & Hl & HP).
  assert (Hout : forall a, out t' 0 a = out t 0 a) by (destruct Hre as ((_ & Ho & _) & _); done).
  assert (Hge : forall a c, out t 0 a = Some c -> 1 <= count t c).
  { intros a c Ha. destruct (it_child _ _ _ Tr _ _ _ Ha) as (Hlt & d & _ & Hd). by apply (B c (S d)). }
  assert (Hiff : forall a, 0 < taken t' a <-> 0 < taken t a).
  { intros a. unfold taken. rewrite Hout. destruct (out t 0 a) as [c|] eqn:E; [|done]. pose proof (Hge _ _ E). pose proof (tempered_ge1 T _ _ HT H0 (Hc _ _ E)). lia. }
  set (f := fun b => INR (taken t' b)). assert (Hf : forall b, (0 <= f b)%R) by (intros b; apply pos_INR).
  assert (exists a, a < A /\ 0 < taken t a) as (a0 & Ha0 & Hta0).
  { destruct (outs t 0) as [|c l] eqn:E; [unfold children_count in K; rewrite E in K; cbn in K; destruct ws; done|].
    assert (Hin : c ∈ outs t 0) by (rewrite E; apply elem_of_list_here). apply elem_outs in Hin as (a & Ha). exists a. split.
    - unfold out in Ha. apply bind_Some in Ha as (x & Hx & Ha). apply bind_Some in Ha as (e & He & _). apply lookup_lt_Some in He.
      rewrite <- (it_width _ _ _ Tr 0 (length (d_edges x))); [done|]. unfold width. by rewrite Hx.
    - unfold taken. rewrite Ha. by eapply Hge. }
  assert (Hs : (0 < sumn A f)%R).
  { eapply Rlt_le_trans; [|apply (sumn_ge_term A f a0); [done|intros; apply Hf]]. apply lt_0_INR. by apply Hiff. }
  split; [done|]. split.
  - assert (Hpe : p = map (fun a => f a / sumn A f)%R (seq 0 A)).
    { apply list_eq. intros i. destruct (decide (i < A)) as [Hi|Hi].
      - rewrite HP by done. change (map ?g ?l) with (g <$> l). rewrite list_lookup_fmap, lookup_seq_lt by done. done.
      - rewrite !lookup_ge_None_2; [done|rewrite map_length, seq_length; lia|lia]. }
    rewrite Hpe, suml_seq. unfold Rdiv. rewrite sumn_scal_r. apply Rinv_r. lra.
  - intros a x Hx. assert (Ha : a < A) by (apply lookup_lt_Some in Hx; lia). rewrite HP in Hx by done. injection Hx as <-.
    assert (Hi : (0 < / sumn A f)%R) by (by apply Rinv_0_lt_compat). change (INR (taken t' a)) with (f a). change (fun b => INR (taken t' b)) with f. split; [split|split].
    + apply Rmult_le_pos; [done|lra].
    + apply (Rmult_le_reg_r (sumn A f)); [done|]. unfold Rdiv. rewrite Rmult_assoc, Rinv_l, Rmult_1_r, Rmult_1_l by lra. apply sumn_ge_term; [done|intros; apply Hf].
    + intros Hx. apply Hiff. unfold f, Rdiv in Hx. destruct (taken t' a); [|lia]. cbn [INR] in Hx. rewrite Rmult_0_l in Hx. lra.
    + intros Hx. apply Rmult_lt_0_compat; [|done]. apply lt_0_INR. by apply Hiff.
Qed.
Print Assumptions C43_policy_is_distribution.
(** It is defined for every temperature of at least 1 *)
Theorem C43_policy_defined policy k q0 ws t T : 0 < k_depth k -> (Z.of_nat (length ws) < 2 ^ 64)%Z -> visits real_num k q0 (init_mcts real_num policy) ws = Some t ->
  (1 <= T)%R -> exists t' p, get_mcts_probability t T = Some (t', p).
Proof.
  intros HD Hlw H HT. destruct (C43_counts_consistent _ _ _ _ _ _ _ HD H) as (Tr & B & K & _).
  assert (Hcb : forall a c, out t 0 a = Some c -> count t c <= length ws) by (intros a c Ha; rewrite <- K; by eapply count_child).
  unfold get_mcts_probability. pose proof (it_root _ _ _ Tr) as H0. unfold depth_of in H0. apply fmap_Some in H0 as (root & Hr & _). unfold rd. rewrite Hr. cbn [mbind option_bind].
  assert (Ht : exists t', temper_children T t root = Some t'); [|destruct Ht as (t' & ->); by eexists _, _].
  unfold temper_children.
  edestruct (for_loop_inv (fun i s => length (t_nodes s) = length (t_nodes t) /\ (forall a c, i <= a -> out t 0 a = Some c -> count s c = count t c)) (fun i t0 => e ← rd (d_edges root) i;
    match e_out e with | None => Some t0 | Some c => y ← rd (t_nodes t0) c; m ← tempered T (d_count y); Some (set_node c (with_count m y) t0) end) (length (d_edges root)) 0 t)
    as (s & Hs & _); [done| |by exists s]. cbv beta.
  intros i s Hi [Hln Hcn]. destruct (lookup_lt_is_Some_2 (d_edges root) i) as [e He]; [lia|]. change (rd (d_edges root) i) with (d_edges root !! i). rewrite He. cbn [mbind option_bind].
  destruct (e_out e) as [c|] eqn:Ec; [|exists s; split; [done|]; split; [done|]; intros; eapply Hcn; [|done]; lia].
  assert (Ho : out t 0 i = Some c) by (unfold out; rewrite Hr; cbn; by rewrite He).
  assert (Hcl : c < length (t_nodes s)). { destruct (it_child _ _ _ Tr _ _ _ Ho) as (_ & d & _ & Hd). apply depth_lt in Hd. lia. }
  destruct (lookup_lt_is_Some_2 _ _ Hcl) as [y Hy]. unfold rd. rewrite Hy. cbn [mbind option_bind].
  assert (Hyc : d_count y = count t c) by (rewrite <- (Hcn i c); [unfold count; by rewrite Hy|lia|done]).
  destruct (tempered_defined T (d_count y) HT) as (m & ->); [rewrite Hyc; pose proof (Hcb _ _ Ho); lia|]. cbn [mbind option_bind]. eexists. split; [done|].
  split; [cbn; by rewrite insert_length|]. intros a c' Ha Hac. rewrite count_set by done. rewrite decide_False; [apply (Hcn a); [lia|done]|].
  intros ->. destruct (it_unique _ _ _ Tr _ _ _ _ _ Hac Ho). lia.
Qed.
Print Assumptions C43_policy_defined.
(** At a temperature of at most a tenth, an action taken 100 times overflows the count *)
Theorem C43_policy_overflow_refuted policy k q0 ws t T a : 0 < k_depth k -> visits real_num k q0 (init_mcts real_num policy) ws = Some t ->
  (0 < T <= / 10)%R -> 100 <= taken t a -> get_mcts_probability t T = None.
Proof.
  intros HD H HT Ha. destruct (C43_counts_consistent _ _ _ _ _ _ _ HD H) as (Tr & _).
  destruct (get_mcts_probability t T) as [[t' p]|] eqn:E; [|done]. exfalso.
  destruct (policy_spec _ _ T t t' p Tr E) as (_ & Hc & _). unfold taken in Ha. destruct (out t 0 a) as [c|] eqn:Eo; [|lia].
  specialize (Hc a c Eo). rewrite tempered_overflow in Hc; done.
Qed.
Print Assumptions C43_policy_overflow_refuted.
(** With temperature 1 it is how often each action was taken, and reading it leaves the search as it was *)
Theorem C43_policy_frequencies policy k q0 ws t : 0 < k_depth k -> (Z.of_nat (length ws) < 2 ^ 64)%Z -> visits real_num k q0 (init_mcts real_num policy) ws = Some t ->
  exists t' p, get_mcts_probability t 1 = Some (t', p) /\ (forall i, count t' i = count t i /\ value t' i = value t i /\ forall a, out t' i a = out t i a)
  /\ forall a, a < length policy -> p !! a = Some (INR (taken t a) / INR (length ws))%R.
Proof.
  intros HD Hlw H. set (A := length policy). destruct (C43_counts_consistent _ _ _ _ _ _ _ HD H) as (Tr & B & K & _). fold A in Tr.
  assert (Hcb : forall a c, out t 0 a = Some c -> count t c <= length ws).
  { intros a c Ha. rewrite <- K. by eapply count_child. }
  pose proof (C43_policy_defined _ _ _ _ _ 1%R HD Hlw H (Rle_refl 1)) as Hdef.
  destruct Hdef as (t' & p & Hp). exists t', p. split; [done|].
  destruct (policy_spec A _ 1 t t' p Tr Hp) as ((Al & Hv & _) & Hc & Hno & Hl & HP).
  assert (Hcount : forall i, count t' i = count t i).
  { intros i. destruct (decide (i ∈ outs t 0)) as [Hin|Hin].
    - apply elem_outs in Hin as (a & Ha). pose proof (Hc _ _ Ha) as E. rewrite tempered_1 in E by (pose proof (Hcb _ _ Ha); lia). by injection E.
    - apply Hno. intros a Ha. apply Hin. apply elem_outs. by exists a. }
  assert (Hout : forall n a, out t' n a = out t n a) by (destruct Al as (_ & Ho & _); done).
  assert (Htk : forall a, taken t' a = taken t a) by (intros a; unfold taken; rewrite Hout; by destruct (out t 0 a)).
  split; [done|]. intros a Ha. rewrite HP by done. rewrite Htk. f_equal. f_equal. rewrite <- K.
  rewrite (sumn_ext A _ (fun b => INR (taken t b))) by (intros; by rewrite Htk).
  pose proof (it_root _ _ _ Tr) as H0. unfold depth_of in H0. apply fmap_Some in H0 as (root & Hr & _).
  assert (HA : length (d_edges root) = A) by (apply (it_width _ _ _ Tr 0); unfold width; by rewrite Hr).
  unfold children_count, outs. rewrite Hr. rewrite <- HA.
  assert (Hg : forall (l : list edge) f, (forall b e, l !! b = Some e -> f b = match e_out (F := R) e with Some c => count t c | None => 0 end) ->
    sumn (length l) (fun b => INR (f b)) = INR (sum_list (count t <$> omap e_out l))).
  { clear. intros l. induction l as [|e l IH]; intros f Hf; [done|]. cbn [length]. rewrite sumn_S_l. rewrite (IH (fun i => f (S i))) by (intros b e' Hb; by apply Hf).
    rewrite (Hf 0 e eq_refl). cbn [omap list_omap]. destruct (e_out e) as [c|].
    - rewrite fmap_cons. cbn [sum_list]. by rewrite plus_INR.
    - cbn [INR]. rewrite Rplus_0_l. done. }
  apply Hg. intros b e He. unfold taken, out. rewrite Hr. cbn. by rewrite He.
Qed.
Print Assumptions C43_policy_frequencies.
(** With priors and noise below 1 at the root the policy puts everything on the first action, whatever the networks predict *)
Theorem C43_policy_constant_refuted policy k q0 ws t T t' p : 0 < k_depth k -> ws <> [] -> visits real_num k q0 (init_mcts real_num policy) ws = Some t ->
  (0 <= k_eps k <= 1)%R -> Forall (fun p => 0 <= p < 1)%R policy ->
  Forall (fun w => length (w_noise w) = length policy /\ Forall (fun s => 0 <= s < 1)%R (w_noise w)) ws ->
  (0 < T)%R -> get_mcts_probability t T = Some (t', p) -> exists n, p = 1%R :: replicate n 0%R.
Proof.
  intros HD Hws H He Hp Hw HT HP. destruct (C43_policy_is_distribution _ _ _ _ _ _ _ _ HD Hws H HT HP) as (Hl & Hs & Hx).
  destruct (C43_other_actions_refuted _ _ _ _ _ HD H He Hp Hw) as (_ & H0). exists (pred (length p)).
  assert (Hz : forall a x, p !! S a = Some x -> x = 0%R).
  { intros a x Ha. destruct (Hx _ _ Ha) as [[Hge _] Hiff]. destruct (decide (x = 0)%R) as [->|Hne]; [done|]. exfalso.
    assert (Hpos : (0 < x)%R) by lra. apply Hiff in Hpos. rewrite H0 in Hpos by done. lia. }
  destruct p as [|x p]; [rewrite suml_nil in Hs; lra|]. assert (Hrep : p = replicate (length p) 0%R).
  { apply list_eq. intros i. destruct (p !! i) as [y|] eqn:E.
    - rewrite lookup_replicate_2 by (by eapply lookup_lt_Some). f_equal. by apply (Hz i).
    - symmetry. apply lookup_ge_None_2. rewrite replicate_length. by apply lookup_ge_None_1. }
  cbn [length pred]. rewrite <- Hrep. f_equal. rewrite suml_cons in Hs. rewrite Hrep in Hs.
  assert (Hs0 : suml (replicate (length p) 0%R) = 0%R); [|lra]. generalize (length p). clear. intros n. induction n; [apply suml_nil|]. cbn [replicate]. rewrite suml_cons. lra.
Qed.
Print Assumptions C43_policy_constant_refuted.
(** Before the first visit the policy is not a distribution: it is all zeros *)
Theorem C43_policy_unvisited_refuted policy T : exists t', get_mcts_probability (init_mcts real_num policy) T = Some (t', replicate (length policy) 0%R).
Proof.
  unfold get_mcts_probability. cbn [rd t_nodes init_mcts lookup list_lookup mbind option_bind d_edges]. set (t := init_mcts real_num policy).
  assert (Ht : temper_children T t (Node 0 0 0%R 0%R 0%R 0%R (fresh_edges policy)) = Some t).
  { unfold temper_children. cbn [d_edges].
    edestruct (for_loop_inv (fun i s => s = t) (fun i t0 => e ← rd (fresh_edges policy) i;
        match e_out e with | None => Some t0 | Some c => y ← rd (t_nodes t0) c; m ← tempered T (d_count y); Some (set_node c (with_count m y) t0) end) (length (fresh_edges policy)) 0 t)
        as (s & Hs & Es); [done| |rewrite Es in Hs; exact Hs]. cbv beta. intros i s Hi ->. exists t. split; [|done]. unfold rd, fresh_edges in *. rewrite fmap_length in Hi.
    rewrite list_lookup_fmap. destruct (lookup_lt_is_Some_2 policy i) as [y Hy]; [lia|]. by rewrite Hy. }
  exists t. change (n_z real_num 0) with 0%R. rewrite Ht. cbn [mbind option_bind]. repeat f_equal.
  unfold fresh_edges. generalize (foldl (fun (s : R) (c : nat) => (s + INR c)%R) 0%R (omap (fun c => c) ((fun e : edge => d_count <$> child_of t e) <$> ((fun p => Edge p None) <$> policy)))).
  intros s. clearbody t. clear. induction policy as [|p l IH]; [done|]. cbn. f_equal. exact IH.
Qed.
Print Assumptions C43_policy_unvisited_refuted.
(** Reading the policy with a temperature above 1 shrinks the counts of the children of the root visited more than once, after which the
    counts of the tree are no longer consistent *)
Theorem C43_reading_policy_refuted policy k q0 ws t T t' p a : 1 < k_depth k -> visits real_num k q0 (init_mcts real_num policy) ws = Some t ->
  (1 < T)%R -> 2 <= taken t a -> get_mcts_probability t T = Some (t', p) -> taken t' a < taken t a /\ ~ balanced (k_depth k) t'.
Proof.
  intros HD H HT Ha Hp. destruct (C43_counts_consistent _ _ _ _ _ _ _ (Nat.lt_trans 0 1 _ Nat.lt_0_1 HD) H) as (Tr & B & _).
  destruct (policy_spec _ _ T t t' p Tr Hp) as ((Al & _) & Hc & Hno & _).
  assert (Hout : forall n b, out t' n b = out t n b) by (destruct Al as (_ & Ho & _); done).
  unfold taken in Ha |- *. rewrite Hout. destruct (out t 0 a) as [c|] eqn:Eo; [|lia].
  pose proof (tempered_shrinks T _ _ HT Ha (Hc _ _ Eo)) as Hlt. split; [done|]. intros B'.
  destruct (it_child _ _ _ Tr _ _ _ Eo) as (H0c & d & Hd0 & Hdc). rewrite (it_root _ _ _ Tr) in Hd0. injection Hd0 as <-.
  destruct (B c 1 H0c Hdc) as [_ Hb]. specialize (Hb HD).
  destruct (B' c 1 H0c) as [_ Hb']; [destruct Al as (_ & _ & Hd & _); by rewrite Hd|]. specialize (Hb' HD).
  assert (Hk : children_count t' c = children_count t c); [|lia]. unfold children_count.
  assert (Ho : outs t' c = outs t c). { assert (Hall := Hout c). unfold outs. destruct Al as (Hl & _ & _ & Hw & _).
    specialize (Hw c). unfold width in Hw. unfold out in Hall. destruct (t_nodes t' !! c) as [x'|], (t_nodes t !! c) as [x|]; try done. cbn in Hw, Hall. injection Hw as Hw.
    revert Hall Hw. clear. generalize (d_edges x) (d_edges x'). intros l1. induction l1 as [|e l1 IH]; intros [|e' l2] Hall Hw; cbn in Hw; try lia; [done|].
    cbn. specialize (Hall 0) as H0. cbn in H0. rewrite H0. specialize (IH l2 (fun b => Hall (S b)) ltac:(lia)). by rewrite IH. }
  rewrite Ho. apply f_equal. apply list_fmap_ext. intros j i Hi. apply Hno. intros b Hb0. apply elem_of_list_lookup_2 in Hi. apply elem_outs in Hi as (b' & Hb2).
  destruct (it_unique _ _ _ Tr _ _ _ _ _ Hb0 Hb2). lia.
Qed.
Print Assumptions C43_reading_policy_refuted.

(** get_mcts_v, the normalised value of the root, is between 0 and 1 as long as two different values were seen *)
Theorem C43_root_value_bounded policy k q0 ws t T t' p v : 0 < k_depth k -> ws <> [] -> visits real_num k q0 (init_mcts real_num policy) ws = Some t ->
  (0 < T)%R -> get_mcts_probability t T = Some (t', p) -> (t_qmin t < t_qmax t)%R -> get_mcts_v t' p = Some v -> (0 <= v <= 1)%R.
Proof.
  intros HD Hws H HT Hp Hq Hv. destruct (C43_policy_is_distribution _ _ _ _ _ _ _ _ HD Hws H HT Hp) as (Hl & Hs & Hx).
  destruct (C43_counts_consistent _ _ _ _ _ _ _ HD H) as (Tr & B & _).
  destruct (policy_spec _ _ T t t' p Tr Hp) as ((Al & Hval & Hm1 & Hm2) & _).
  unfold get_mcts_v in Hv. apply bind_Some in Hv as (root & Hr & Hv). unfold rd in Hr. apply (inj Some) in Hv. subst v.
  assert (Hg : forall (p : list R) (es : list edge) s0, Forall (fun x => 0 <= x)%R p ->
    (forall e y, e ∈ es -> child_of t' e = Some y -> (t_qmin t' <= d_q y <= t_qmax t')%R) ->
    (s0 <= foldl (fun s q => (s + q)%R) s0 (zip_with (fun p e => match child_of t' e with Some y => (p * (d_q y - t_qmin t') / (t_qmax t' - t_qmin t'))%R | None => 0%R end) p es) <= s0 + suml p)%R).
  { intros p0. induction p0 as [|x p0 IH]; intros es s0 Hp0 Hy; [rewrite suml_nil; cbn; lra|]. apply list.Forall_cons in Hp0 as [Hx0 Hp0]. rewrite suml_cons.
    destruct es as [|e es]; [cbn; pose proof (suml_nonneg p0 Hp0); lra|]. cbn [zip_with foldl].
    set (z := match child_of t' e with Some _ => _ | None => _ end).
    assert (Hz : (0 <= z <= x)%R).
    { unfold z. destruct (child_of t' e) as [y|] eqn:E; [|lra]. destruct (Hy e y (elem_of_list_here _ _) E) as [Y1 Y2].
      assert (Hi : (0 < / (t_qmax t' - t_qmin t'))%R) by (apply Rinv_0_lt_compat; lra). split.
      - apply Rmult_le_pos; [|lra]. apply Rmult_le_pos; lra.
      - apply (Rmult_le_reg_r (t_qmax t' - t_qmin t')); [lra|]. unfold Rdiv. rewrite Rmult_assoc, Rinv_l, Rmult_1_r by lra. apply Rmult_le_compat_l; lra. }
    specialize (IH es (s0 + z)%R Hp0 (fun e y He => Hy e y (elem_of_list_further _ _ _ He))). lra. }
  specialize (Hg p (d_edges root) 0%R). rewrite Hs, Rplus_0_l in Hg. apply Hg.
  - apply Forall_lookup. intros i x Hi. by apply (Hx i).
  - intros e y He Hy. unfold child_of in Hy. apply bind_Some in Hy as (c & Hc & Hy). apply elem_of_list_lookup in He as (a & Ha).
    assert (Hout : out t 0 a = Some c). { destruct Al as (_ & Ho & _). rewrite <- Ho. unfold out. rewrite Hr. cbn. by rewrite Ha. }
    destruct (it_child _ _ _ Tr _ _ _ Hout) as (H0c & d & _ & Hd). apply depth_lt in Hd. apply lookup_lt_is_Some_2 in Hd as [y' Hy'].
    destruct (C43_values_bounded _ _ _ _ _ HD H c y' H0c Hy') as [Hb _]. specialize (Hval c). unfold value in Hval. rewrite Hy, Hy' in Hval. cbn in Hval. injection Hval as Hval.
    rewrite Hval, Hm1, Hm2. done.
Qed.
Print Assumptions C43_root_value_bounded.

(** ** Examples *)
(** integers as an arithmetic, to run the search: 3 actions, depth 2, the noise alone chooses the action at the root *)
Definition z_num : num Z := {|
  n_z := fun z => z; n_add := Z.add; n_sub := Z.sub; n_mul := Z.mul; n_div := Z.div; n_lt := Z.ltb; n_le := Z.leb; n_log := fun z => z; n_sqrt := Z.sqrt; n_flt := fun z => z;
  n_int := Some |}.
Definition ex_config : config (F := Z) := Config 2 5 1%Z 1%Z 1%Z 1%Z.
Definition ex_draw (noise : list Z) (v : Z) : draw (F := Z) := Draw noise 1%Z [1; 1; 0]%Z 3%Z v.
Definition ex_history := [ex_draw [1; 0; 5] 4; ex_draw [0; 1; 5] 7; ex_draw [1; 0; 5] 2; ex_draw [0; 1; 5] 8; ex_draw [1; 0; 5] 9; ex_draw [1; 0; 5] 9]%Z.
Definition ex_tree : option (tree (F := Z)) := visits z_num ex_config 0%Z (init_mcts z_num [1; 0; 5]%Z) ex_history.
Example C43_run : exists t, ex_tree = Some t /\ 0 < k_depth ex_config /\ (fun x => (d_count x, d_depth x, d_q x)) <$> t_nodes t = [(0, 0, 3%Z); (4, 1, 7%Z); (2, 1, 10%Z); (3, 2, 2%Z); (1, 2, 8%Z)]
  /\ outs t 0 = [2; 1] /\ outs t 1 = [3] /\ taken t 0 = 2 /\ taken t 1 = 4 /\ t_returned t = Some 3 /\ out t 1 0 = Some 3.
Proof. eexists. split; [vm_compute; reflexivity|]. repeat split; vm_compute; lia. Qed.
(** one more visit *)
Example C43_run_next : exists t t', ex_tree = Some t /\ visit z_num ex_config 0%Z t (ex_draw [0; 1; 5]%Z 3) = Some t' /\ t_returned t' = Some 4 /\ out t' 2 0 = Some 4
  /\ value t' 2 = value t 2 /\ count t' 4 = 2 /\ count t 4 = 1.
Proof. eexists _, _. split; [vm_compute; reflexivity|]. split; [vm_compute; reflexivity|]. repeat split; vm_compute; lia. Qed.
Example C43_run_defined : Forall (fun w => length (w_policy w) = 3 /\
    exists a, root_choice z_num ex_config w (Node 0 0 0%Z 0%Z 0%Z 0%Z (fresh_edges [1; 0; 5]%Z)) = Some a /\ a < 3) ex_history.
Proof. unfold ex_history. repeat constructor; try (eexists; split; [vm_compute; reflexivity|lia]). Qed.

(** exact reals: 2 actions of prior 1/2, no noise, and any number of draws above 1/2 *)
Definition ex_config_r : config (F := R) := Config 2 5 1%R 0%R 1%R 1%R.
Definition ex_draw_r : draw (F := R) := Draw [0; 0]%R (3 / 4)%R [/ 2; / 2]%R 3%R 4%R.
Example C43_reals n q0 : exists t, visits real_num ex_config_r q0 (init_mcts real_num [/ 2; / 2]%R) (replicate n ex_draw_r) = Some t
  /\ 1 < k_depth ex_config_r /\ (0 <= k_eps ex_config_r <= 1)%R /\ Forall (fun p => 0 <= p < 1)%R [/ 2; / 2]%R
  /\ Forall (fun w => length (w_noise w) = length [/ 2; / 2]%R /\ Forall (fun s => 0 <= s < 1)%R (w_noise w)) (replicate n ex_draw_r)
  /\ taken t 0 = n.
Proof.
  assert (Hpol : Forall (fun p => 0 <= p < 1)%R [/ 2; / 2]%R) by (repeat constructor; lra).
  assert (Hns : Forall (fun s => 0 <= s < 1)%R (w_noise ex_draw_r)) by (repeat constructor; lra).
  assert (Hws : Forall (fun w => length (w_noise w) = length [/ 2; / 2]%R /\ Forall (fun s => 0 <= s < 1)%R (w_noise w)) (replicate n ex_draw_r)).
  { apply list.Forall_forall. intros w Hw. apply elem_of_replicate in Hw as [-> _]. split; [done|exact Hns]. }
  assert (He : (0 <= k_eps ex_config_r <= 1)%R) by (cbn; lra).
  destruct (C43_visits_defined R real_num [/ 2; / 2]%R ex_config_r q0 (replicate n ex_draw_r)) as (t & Ht).
  - cbn. lia.
  - apply list.Forall_forall. intros w Hw. apply elem_of_replicate in Hw as [-> _]. split; [done|]. exists 0. split; [|cbn; lia].
    rewrite (C43_root_choice_refuted _ _ _ (0 * 0 + (1 - 0) * / 2)%R); [|done|exact He|exact Hns|repeat constructor; cbn; lra|done].
    rewrite decide_True; [done|]. cbn. lra.
  - exists t. split; [done|]. split; [cbn; lia|]. split; [done|]. split; [done|]. split; [done|].
    destruct (C43_other_actions_refuted [/ 2; / 2]%R ex_config_r q0 (replicate n ex_draw_r) t) as [E _]; [cbn; lia|done|done|done|done|]. by rewrite E, replicate_length.
Qed.
(** and its policy at temperature 2 *)
Example C43_reals_policy q0 : exists t t' p, visits real_num ex_config_r q0 (init_mcts real_num [/ 2; / 2]%R) (replicate 3 ex_draw_r) = Some t
  /\ (1 < 2)%R /\ 2 <= taken t 0 /\ get_mcts_probability t 2%R = Some (t', p).
Proof.
  destruct (C43_reals 3 q0) as (t & Ht & _ & _ & _ & _ & Hn). exists t.
  destruct (C43_policy_defined [/ 2; / 2]%R ex_config_r q0 (replicate 3 ex_draw_r) t 2%R) as (t' & p & Hp); [cbn; lia|cbn; lia|done|lra|].
  exists t', p. split; [done|]. split; [lra|]. split; [lia|done].
Qed.
(** a tree where the first action has value 5 and the second 9, of values between 0 and 10 *)
Example C43_normalisation_hyps : let n q := Node 1 2 q 0%R 0%R 0%R [] in let x := Node 3 1 0%R 0%R 0%R 0%R [Edge (/ 2)%R (Some 1); Edge (/ 2)%R (Some 2)] in
  let t := Tree [x; n 5%R; n 9%R] 2 None 0%R 10%R 0%R in
  t_nodes t !! 1 = Some (n 5%R) /\ t_nodes t !! 2 = Some (n 9%R) /\ (t_qmin t <= 9 <= t_qmax t)%R /\ (t_qmin t < t_qmax t)%R /\ (1 <= d_q (n 5%R))%R
  /\ ucb_choice real_num ex_config_r t 0%R x = Some 0.
Proof.
  intros n x t. split; [done|]. split; [done|]. split; [cbn; lra|]. split; [cbn; lra|]. split; [cbn; lra|].
  by apply (C43_normalisation_refuted ex_config_r t 0%R x (Edge (/ 2)%R (Some 1)) (Edge (/ 2)%R (Some 2)) 1 2 (n 5%R) (n 9%R)); try done; cbn; lra.
Qed.
(** after two visits the values 7 and 4 were seen *)
Example C43_reals_values q0 : exists t x1 x2, visits real_num ex_config_r q0 (init_mcts real_num [/ 2; / 2]%R) [ex_draw_r; ex_draw_r] = Some t
  /\ t_nodes t !! 1 = Some x1 /\ t_nodes t !! 2 = Some x2 /\ d_q x1 = (3 + 1 * 4)%R /\ d_q x2 = (3 - 3 + 1 * 4)%R /\ (t_qmin t < t_qmax t)%R.
Proof.
  destruct (C43_reals 2 q0) as (t & Ht & _). cbn [replicate] in Ht. exists t.
  assert (Hq : exists x1 x2, t_nodes t !! 1 = Some x1 /\ t_nodes t !! 2 = Some x2 /\ d_q x1 = (3 + 1 * 4)%R /\ d_q x2 = (3 - 3 + 1 * 4)%R).
  { cbn [visits] in Ht. apply bind_Some in Ht as (t1 & H1 & Ht). apply bind_Some in Ht as (t2 & H2 & Ht). injection Ht as <-.
    assert (Hrc : forall x, e_prior <$> d_edges x = [/ 2; / 2]%R -> root_choice real_num ex_config_r ex_draw_r x = Some 0).
    { intros x Hx. rewrite (root_choice_priors real_num _ _ x (Node 0 0 0%R 0%R 0%R 0%R (fresh_edges [/ 2; / 2]%R))) by (by rewrite Hx).
      rewrite (C43_root_choice_refuted _ _ _ (0 * 0 + (1 - 0) * / 2)%R); [|done|cbn; lra|repeat constructor; cbn; lra|repeat constructor; cbn; lra|done].
      rewrite decide_True; [done|]. cbn. lra. }
    unfold visit in H1. cbn [visit_node k_depth ex_config_r t_nodes init_mcts rd lookup list_lookup mbind option_bind] in H1. cbn [decide] in H1.
    rewrite decide_False in H1 by lia. cbv zeta in H1. rewrite decide_True in H1 by done. rewrite Hrc in H1 by done. cbn in H1. injection H1 as <-.
    unfold visit in H2. apply fmap_Some in H2 as ([t3 v3] & H2 & ->). cbn [fst]. change (S (k_depth ex_config_r)) with 3 in H2. cbn [visit_node] in H2.
    apply bind_Some in H2 as (x & Hx & H2). apply (inj Some) in Hx. subst x. rewrite decide_False in H2 by (cbn; lia). cbv zeta in H2. rewrite decide_True in H2 by done.
    rewrite Hrc in H2 by done. cbn [mbind option_bind] in H2. apply bind_Some in H2 as (e & He & H2). apply (inj Some) in He. subst e. cbn [e_out] in H2.
    apply bind_Some in H2 as ([t4 v4] & H4 & H2). apply bind_Some in H4 as (x & Hx & H4). apply (inj Some) in Hx. subst x. rewrite decide_False in H4 by (cbn; lia).
    rewrite decide_False in H4 by lia. rewrite ucb_choice_fresh in H4; [|intros u; cbn; apply bool_decide_eq_false_2; lra|done|repeat constructor].
    cbn in H4. injection H4 as <- <-. cbn in H2. injection H2 as <- <-.
    eexists _, _. split; [done|]. split; [done|]. split; [done|done]. }
  destruct Hq as (x1 & x2 & N1 & N2 & Q1 & Q2). exists x1, x2. split; [done|]. split; [done|]. split; [done|]. split; [done|]. split; [done|].
  destruct (C43_values_bounded [/ 2; / 2]%R ex_config_r q0 [ex_draw_r; ex_draw_r] t ltac:(cbn; lia) Ht 1 x1 ltac:(lia) N1) as [B1 _].
  destruct (C43_values_bounded [/ 2; / 2]%R ex_config_r q0 [ex_draw_r; ex_draw_r] t ltac:(cbn; lia) Ht 2 x2 ltac:(lia) N2) as [B2 _]. lra.
Qed.
