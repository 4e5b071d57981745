(** Proofs about the values over the exact reals, the choice at the root and the policy. *)
From Coq Require Import Reals Lra.
From Verif Require Import RealSum Sort_Model Mcts_Model Mcts_Spec Mcts_Proofs Mcts2_Proofs BaseLemmas.
Open Scope nat_scope.
Notation rtree := (tree (F := R)).
Notation rnode := (node (F := R)).

(** * Bounds *)
Definition within (t : rtree) (q : R) : Prop := (t_qmin t <= q <= t_qmax t)%R.
(** all the values below the root but that of node e are within the bounds *)
Definition bounded_but (e : nat) (t : rtree) : Prop := forall i q, 0 < i -> i <> e -> value t i = Some q -> within t q.
Definition wider (t t' : rtree) : Prop := (t_qmin t' <= t_qmin t)%R /\ (t_qmax t <= t_qmax t')%R.
Lemma within_wider t t' q : wider t t' -> within t q -> within t' q. Proof. unfold wider, within. lra. Qed.
Lemma wider_bound q t : wider t (bound real_num q t) /\ within (bound real_num q t) q.
Proof. unfold wider, within, bound. cbn. repeat case_bool_decide; lra. Qed.
Lemma value_set i x (t : rtree) n : i < length (t_nodes t) -> value (set_node i x t) n = if decide (n = i) then Some (d_q x) else value t n.
Proof.
  intros Hi. unfold value. cbn. case_decide as E; [subst; by rewrite list_lookup_insert|by rewrite list_lookup_insert_ne].
Qed.
(** the value of a node at the maximum depth is its reward plus its predicted value *)
Definition leaves (D : nat) (t : rtree) : Prop := forall i x, 0 < i -> t_nodes t !! i = Some x -> d_depth x = D -> d_q x = (d_reward x + d_v x)%R.

Lemma visit_node_bounds A k fuel w (t : rtree) n x q depth t' v :
  is_tree A (k_depth k) t -> t_nodes t !! n = Some x -> d_depth x = depth -> bounded_but 0 t -> leaves (k_depth k) t -> (n = 0 -> 0 < k_depth k) ->
  visit_node real_num fuel k w t n q depth = Some (t', v) ->
  bounded_but n t' /\ (t_returned t' = Some n -> bounded_but 0 t') /\ wider t t' /\ leaves (k_depth k) t'.
Proof.
  set (D := k_depth k). revert t n x q depth t' v. induction fuel as [|fuel IH]; intros t n x q depth t' v T Hn Hd HB HV H0 H; [done|].
  pose proof H as Hfull. cbn [visit_node] in H. unfold rd in H. rewrite Hn in H. cbn [mbind option_bind] in H. fold D in H.
  assert (HB' : forall e t', (forall i q, 0 < i -> value t' i = Some q -> within t' q) -> bounded_but e t') by (intros e t2 Hx i q2 Hi _; by apply Hx).
  assert (Hnl : n < length (t_nodes t)) by (by eapply lookup_lt_Some).
  assert (Hdl : depth <= D) by (eapply (it_depth _ _ _ T n); unfold depth_of; rewrite Hn; cbn; by rewrite Hd).
  case_decide as HD.
  { unfold visit_leaf in H. cbv zeta in H. apply (inj Some) in H. apply (f_equal fst) in H. cbn [fst] in H.
    match type of H with context [with_q ?q x] => set (qq := q) in * end. subst t'.
    set (t2 := set_node n (with_count (S (d_count x)) (with_q qq x)) (set_returned n t)).
    destruct (wider_bound qq t2) as [W1 W2].
    assert (HF : forall i q, 0 < i -> value (bound real_num qq t2) i = Some q -> within (bound real_num qq t2) q).
    { intros i q2 Hi. change (value (bound real_num qq t2) i) with (value t2 i). unfold t2. rewrite value_set by done. destruct (decide (i = n)) as [E|E].
      - intros [= <-]. exact W2.
      - intros Hq. eapply within_wider; [exact W1|]. apply (HB i q2); [done|lia|done]. }
    split; [by apply HB'|]. split; [intros _; by apply HB'|]. split; [exact W1|].
    intros i y Hi Hy Hdy. cbn in Hy. destruct (decide (i = n)) as [->|Hin].
    - rewrite list_lookup_insert in Hy by done. injection Hy as <-. cbn. unfold qq. cbn [n_flt n_div n_add n_mul n_z real_num].
      rewrite (HV n x Hi Hn) by (cbn in Hdy; done).
      assert (Hc : (0 < IZR (Z.of_nat (d_count x + 1)))%R) by (apply (IZR_lt 0); lia).
      replace (IZR (Z.of_nat (d_count x + 1))) with (IZR (Z.of_nat (d_count x)) + 1)%R in * by (rewrite <- plus_IZR; f_equal; lia).
      field. lra.
    - rewrite list_lookup_insert_ne in Hy by done. by apply (HV i). }
  cbv zeta in H. apply bind_Some in H as (index & Hix & H). apply bind_Some in H as (e & He & H).
  destruct (e_out e) as [c|] eqn:Eo.
  2: { unfold expand in H. case_decide as Hlen; [done|]. cbv zeta in H. apply (inj Some) in H. apply (f_equal fst) in H. cbn [fst] in H.
    match type of H with context [add_node ?y t] => set (y0 := y) in * end.
    match type of H with context [bound real_num ?q _] => set (qq := q) in * end.
    match type of H with context [set_node n ?z _] => set (x' := z) in * end. subst t'.
    set (t2 := bound real_num qq (add_node y0 t)). destruct (wider_bound qq (add_node y0 t)) as [W1 W2]. fold t2 in W1, W2.
    assert (HW : wider t t2) by exact W1.
    assert (Hl2 : n < length (t_nodes t2)) by (cbn; rewrite app_length; lia).
    assert (HF : forall i q, 0 < i -> value (set_returned (length (t_nodes t)) (set_node n x' t2)) i = Some q -> within t2 q).
    { intros i q2 Hi. change (value (set_returned (length (t_nodes t)) (set_node n x' t2)) i) with (value (set_node n x' t2) i).
      rewrite value_set by done. destruct (decide (i = n)) as [E|E].
      - intros [= <-]. subst i. eapply within_wider; [exact HW|]. apply (HB n); [done|lia|]. unfold value. by rewrite Hn.
      - unfold value. cbn. intros Hq. destruct (decide (i < length (t_nodes t))) as [Hil|Hil].
        + rewrite lookup_app_l in Hq by done. eapply within_wider; [exact HW|]. apply (HB i); [done|lia|]. unfold value. exact Hq.
        + rewrite lookup_app_r in Hq by lia. destruct (i - length (t_nodes t)); [|done]. cbn in Hq. injection Hq as <-. exact W2. }
    split; [by apply HB'|]. split; [intros _; by apply HB'|]. split; [exact HW|].
    intros i y Hi Hy Hdy. cbn in Hy. destruct (decide (i = n)) as [->|Hin].
    - rewrite list_lookup_insert in Hy by (rewrite app_length; lia). injection Hy as <-. cbn in *. by apply (HV n).
    - rewrite list_lookup_insert_ne in Hy by done. destruct (decide (i < length (t_nodes t))) as [Hil|Hil].
      + rewrite lookup_app_l in Hy by done. by apply (HV i).
      + rewrite lookup_app_r in Hy by lia. destruct (i - length (t_nodes t)); [|done]. cbn in Hy. injection Hy as <-. done. }
  set (qh := n_div real_num _ _) in H. apply bind_Some in H as ([t1 vn] & H1 & H).
  assert (Hout : out t n index = Some c) by (unfold out; rewrite Hn; cbn; by rewrite He).
  assert (Hdep : depth_of t n = Some depth) by (unfold depth_of; rewrite Hn; cbn; by rewrite Hd).
  destruct (it_child _ _ _ T _ _ _ Hout) as (Hlt & d & D1 & D2). rewrite Hdep in D1. injection D1 as <-.
  assert (exists y, t_nodes t !! c = Some y /\ d_depth y = S depth) as (y & Hy & Hdy).
  { unfold depth_of in D2. apply fmap_Some in D2 as (y & Hy & Ey). by exists y. }
  destruct (IH _ _ _ _ _ _ _ T Hy Hdy HB HV ltac:(lia) H1) as (B1 & B2 & W & V1).
  destruct (visit_node_post real_num A k fuel _ _ _ _ _ _ _ _ T Hy Hdy H1) as (T1 & (_ & G & _) & _).
  clear Hix. case_decide as Er.
  - injection H as <- <-. specialize (B2 Er). split; [intros i q2 Hi _; apply B2; lia|]. split; [done|]. split; [done|done].
  - apply bind_Some in H as (r & Hr & H). unfold back_up in H. apply bind_Some in H as (x1 & Hx1 & H). apply bind_Some in H as (y1 & Hy1 & H).
    apply bind_Some in H as (z1 & Hz1 & H). cbv zeta in H. unfold rd in *. apply (inj Some) in H. apply (f_equal fst) in H. cbn [fst] in H.
    match type of H with context [with_q ?q x1] => set (qq := q) in * end. subst t'.
    set (t2 := set_node c _ _). destruct (wider_bound (d_q y1) t2) as [W1 W2].
    assert (Hnl1 : n < length (t_nodes t1)) by (by eapply lookup_lt_Some). assert (Hcl1 : c < length (t_nodes t1)) by (by eapply lookup_lt_Some).
    assert (Hdx1 : d_depth x1 = depth). { apply G in Hdep. unfold depth_of in Hdep. rewrite Hx1 in Hdep. by injection Hdep. }
    assert (HF : bounded_but n (bound real_num (d_q y1) t2)).
    { intros i q2 Hi Hin. change (value (bound real_num (d_q y1) t2) i) with (value t2 i). unfold t2. rewrite value_set by (cbn; by rewrite insert_length).
      destruct (decide (i = c)) as [E|E].
      - intros [= <-]. exact W2.
      - rewrite value_set by done. rewrite decide_False by done. intros Hq. eapply within_wider; [exact W1|]. apply (B1 i); done. }
    split; [exact HF|]. split.
    { intros Ex. cbn in Ex. exfalso. rewrite Ex in Hr. injection Hr as <-.
      destruct (visit_node_post real_num A k fuel _ _ _ _ _ _ _ _ T Hy Hdy H1) as (_ & _ & P & Hr' & Hc & _).
      rewrite Hr' in Ex. injection Ex as Ex. destruct P as [|p P]; [cbn in Ex; lia|].
      pose proof (chain_lt _ _ _ _ _ T1 Hc _ (final_elem c (p :: P) ltac:(done))). lia. }
    split.
    { destruct W as [Wa Wb], W1 as [Wc Wd]. split; [eapply Rle_trans; [exact Wc|exact Wa]|eapply Rle_trans; [exact Wb|exact Wd]]. }
    intros i u Hi Hu Hdu. cbn in Hu. destruct (decide (i = c)) as [->|Hic].
    + rewrite list_lookup_insert in Hu by (by rewrite insert_length). injection Hu as <-. cbn in *. by apply (V1 c).
    + rewrite list_lookup_insert_ne in Hu by done. destruct (decide (i = n)) as [->|Hin].
      * rewrite list_lookup_insert in Hu by done. injection Hu as <-. cbn in Hdu. lia.
      * rewrite list_lookup_insert_ne in Hu by done. by apply (V1 i).
Qed.

Lemma visit_bounds A k q0 w (t t' : rtree) : is_tree A (k_depth k) t -> bounded_but 0 t -> leaves (k_depth k) t -> 0 < k_depth k ->
  visit real_num k q0 t w = Some t' -> bounded_but 0 t' /\ leaves (k_depth k) t' /\ wider t t'.
Proof.
  intros T B V HD H. unfold visit in H. apply fmap_Some in H as ([t1 v] & H & ->). cbn [fst].
  pose proof (it_root _ _ _ T) as H0. unfold depth_of in H0. apply fmap_Some in H0 as (x & Hx & Hdx). symmetry in Hdx.
  destruct (visit_node_bounds A k _ _ _ _ _ _ _ _ _ T Hx Hdx B V ltac:(done) H) as (? & _ & ? & ?). done.
Qed.
Lemma visits_bounds A k q0 ws (t t' : rtree) : is_tree A (k_depth k) t -> balanced (k_depth k) t -> bounded_but 0 t -> leaves (k_depth k) t -> 0 < k_depth k ->
  visits real_num k q0 t ws = Some t' -> bounded_but 0 t' /\ leaves (k_depth k) t' /\ wider t t'.
Proof.
  intros T Bal B V HD. revert t T Bal B V. induction ws as [|w ws IH]; intros t T Bal B V H; cbn [visits] in H.
  - injection H as <-. split; [done|]. split; [done|]. unfold wider. lra.
  - apply bind_Some in H as (t1 & H1 & H). destruct (visit_balanced real_num A k q0 w t t1 T Bal HD H1) as (T1 & B1 & _).
    destruct (visit_bounds A k q0 w t t1 T B V HD H1) as (B2 & V2 & W).
    destruct (IH t1 T1 B1 B2 V2 H) as (? & ? & W2). split; [done|]. split; [done|]. unfold wider in *. lra.
Qed.

(** * The action taken at the root *)
Section choice.
Context {F : Type} (O : num F).
Implicit Types t : tree (F := F).
Lemma root_choice_priors k w (x y : node) : e_prior <$> d_edges x = e_prior <$> d_edges y -> root_choice O k w x = root_choice O k w y.
Proof.
  intros H. unfold root_choice. assert (Hl : length (d_edges x) = length (d_edges y)) by (apply (f_equal length) in H; by rewrite !fmap_length in H).
  rewrite Hl. assert (Hp : root_probs O k w x = root_probs O k w y); [|by rewrite Hp].
  unfold root_probs. revert H. generalize (d_edges x) (d_edges y) (w_noise w). clear. intros l1. induction l1 as [|e l1 IH]; intros [|e' l2] ws H; try done.
  destruct ws as [|s ws]; [done|]. cbn in *. injection H as H1 H2. rewrite H1. f_equal. by apply IH.
Qed.
Lemma visit_taken A k q0 (w : draw) t t' x : is_tree A (k_depth k) t -> 0 < k_depth k -> t_nodes t !! 0 = Some x -> visit O k q0 t w = Some t' ->
  exists a, root_choice O k w x = Some a /\ (forall b, taken t' b = taken t b + if decide (b = a) then 1 else 0).
Proof.
  intros T HD Hx H. pose proof (it_root _ _ _ T) as H0. unfold depth_of in H0. rewrite Hx in H0. cbn in H0. injection H0 as Hdx.
  unfold visit in H. apply fmap_Some in H as ([t1 v] & H & ->). cbn [fst].
  destruct (visit_node_post O A k _ _ _ _ _ _ _ _ _ T Hx Hdx H) as (T' & G & P & Hr & Hc & Hp & Hcnt & Hfin & Hl & Hl').
  assert (HPn : P <> []) by (intros ->; destruct Hp as [_ Hp]; specialize (Hp eq_refl); lia).
  replace (counted 0 P) with P in Hcnt by (by destruct P).
  cbn [visit_node] in H. unfold rd in H. rewrite Hx in H. cbn [mbind option_bind] in H. rewrite decide_False in H by lia.
  cbv zeta in H. rewrite decide_True in H by done. apply bind_Some in H as (a & Ha & H). apply bind_Some in H as (e & He & H).
  exists a. split; [done|].
  (* it is enough that edge a leads to a node of P and that the other edges lead where they did *)
  assert (Hgo : forall c, out t1 0 a = Some c -> c ∈ P -> (forall c', out t 0 a = Some c' -> c' = c) -> (out t 0 a = None -> count t c = 0) ->
    (forall b, b <> a -> out t1 0 b = out t 0 b) ->
    forall b, taken t1 b = taken t b + if decide (b = a) then 1 else 0).
  { intros c Hca HcP Hold Hnew Hoth b. unfold taken. case_decide as E.
    - subst b. rewrite Hca, Hcnt. rewrite decide_True by done. destruct (out t 0 a) as [c'|]; [by rewrite (Hold c')|]. by rewrite Hnew.
    - rewrite Hoth by done. destruct (out t 0 b) as [c'|] eqn:Ec; [|done]. rewrite Hcnt. rewrite decide_False; [done|]. intros Hin.
      rewrite <- (Hoth b E) in Ec. assert (c = c') as -> by (by eapply (chain_once _ _ t1 0 P)). apply E. by destruct (it_unique _ _ _ T' _ _ _ _ _ Ec Hca). }
  destruct (e_out e) as [c|] eqn:Eo.
  - set (qh := n_div O _ _) in H. apply bind_Some in H as ([t2 vn] & H1 & H).
    assert (Hout : out t 0 a = Some c) by (unfold out; rewrite Hx; cbn; by rewrite He).
    destruct (it_child _ _ _ T _ _ _ Hout) as (Hlt & d & D1 & D2). unfold depth_of in D1. rewrite Hx in D1. cbn in D1. injection D1 as <-.
    assert (exists y, t_nodes t !! c = Some y /\ d_depth y = 1) as (y & Hy & Hdy).
    { unfold depth_of in D2. apply fmap_Some in D2 as (y & Hy & Ey). exists y. split; [done|]. by rewrite <- Ey, Hdx. }
    destruct (visit_node_post O A k _ _ _ _ _ _ _ _ _ T Hy Hdy H1) as (T2 & G2 & P2 & Hr2 & Hc2 & Hp2 & Hcnt2 & Hfin2 & Hl2 & Hl2').
    assert (Hsame : forall b, out t2 0 b = out t 0 b).
    { intros b. destruct (out t2 0 b) as [c'|] eqn:E.
      - destruct (decide (c' < length (t_nodes t))) as [Hc'|Hc']; [destruct G2 as (_ & _ & _ & G2 & _); symmetry; by apply G2|]. exfalso.
        assert (Hc'l : c' < length (t_nodes t2)). { destruct (it_child _ _ _ T2 _ _ _ E) as (_ & d & _ & Hd). by apply depth_lt in Hd. }
        assert (Hf : final c P2 = c') by (rewrite Hl2'; lia).
        assert (HP2 : P2 <> []). { intros ->. cbn in Hf. subst c'. apply lookup_lt_Some in Hy. lia. }
        pose proof (final_elem c P2 HP2) as Hin. rewrite Hf in Hin. pose proof (chain_prev _ _ _ _ _ _ _ _ T2 Hc2 Hin E) as Hz.
        apply elem_of_cons in Hz as [Hz|Hz]; [lia|]. pose proof (chain_lt _ _ _ _ _ T2 Hc2 _ Hz). lia.
      - destruct (out t 0 b) as [c'|] eqn:E2; [|done]. destruct G2 as (_ & _ & G2 & _). apply G2 in E2. congruence. }
    assert (Hsame' : forall b, out t1 0 b = out t 0 b).
    { case_decide as Er; [injection H as <- <-; done|]. apply bind_Some in H as (r & Hrr & H).
      destruct (back_up_alike _ _ _ _ _ _ _ _ _ _ _ T2 H ltac:(lia)) as ((_ & Ao & _) & _). intros b. rewrite Ao. apply Hsame. }
    apply (Hgo c); [by rewrite Hsame'| |intros c'; congruence|congruence|done].
    destruct P as [|p P]; [done|]. assert (count t1 c = S (count t c)) as HS.
    { case_decide as Er.
      - injection H as <- <-. rewrite Hr2 in Er. injection Er as Er. rewrite Hcnt2. destruct P2 as [|p2 P2]; [|exfalso].
        + cbn [counted]. rewrite decide_True by (by apply elem_of_list_singleton). lia.
        + pose proof (chain_lt _ _ _ _ _ T2 Hc2 _ (final_elem c (p2 :: P2) ltac:(done))). lia.
      - apply bind_Some in H as (r & Hrr & H). destruct (back_up_alike _ _ _ _ _ _ _ _ _ _ _ T2 H ltac:(lia)) as (_ & Hcb & _).
        rewrite Hcb. rewrite decide_True by done. rewrite Hcnt2. rewrite decide_False; [lia|]. intros Hin.
        destruct P2 as [|p2 P2]; [by rewrite Hr2 in Er|]. pose proof (chain_lt _ _ _ _ _ T2 Hc2 _ Hin). lia. }
    rewrite Hcnt in HS. case_decide; [done|lia].
  - assert (Hout : out t 0 a = None) by (unfold out; rewrite Hx; cbn; by rewrite He).
    unfold expand in H. case_decide as Hlen; [done|]. cbv zeta in H. apply (inj Some) in H. apply (f_equal fst) in H. cbn [fst] in H.
    match type of H with context [add_node ?y t] => set (y0 := y) in * end.
    match type of H with context [set_node 0 ?z _] => set (x' := z) in * end. subst t1.
    assert (Hlx : 0 < length (t_nodes t)) by (by eapply lookup_lt_Some).
    apply (Hgo (length (t_nodes t))).
    + unfold out. cbn. rewrite list_lookup_insert by (rewrite app_length; lia). cbn. rewrite list_lookup_insert by (by eapply lookup_lt_Some). done.
    + pose proof (final_elem 0 P HPn) as Hf. cbn [t_returned set_returned set_node] in Hr. injection Hr as Hr. by rewrite <- Hr in Hf.
    + congruence.
    + intros _. by apply count_ge.
    + intros b Hb. unfold out. cbn. rewrite list_lookup_insert by (rewrite app_length; lia). rewrite Hx. cbn. by rewrite list_lookup_insert_ne.
Qed.
Lemma visits_taken A k q0 (ws : list draw) t t' x : is_tree A (k_depth k) t -> balanced (k_depth k) t -> 0 < k_depth k -> t_nodes t !! 0 = Some x -> visits O k q0 t ws = Some t' ->
  exists acts, mapM (fun w => root_choice O k w x) ws = Some acts /\ forall b, taken t' b = taken t b + length (filter (fun a => a = b) acts).
Proof.
  intros T B HD Hx H. pose proof H as Hfull. revert H.
  assert (Hpri : priors t 0 = Some (e_prior <$> d_edges x)) by (unfold priors; by rewrite Hx).
  clear Hfull. revert t T B Hx Hpri. revert x.
  assert (Hgen : forall l ws t, is_tree A (k_depth k) t -> balanced (k_depth k) t -> priors t 0 = Some l -> visits O k q0 t ws = Some t' ->
    forall z, e_prior <$> d_edges z = l ->
    exists acts, mapM (fun w => root_choice O k w z) ws = Some acts /\ forall b, taken t' b = taken t b + length (filter (fun a => a = b) acts)).
  { clear ws. intros l ws. induction ws as [|w ws IH]; intros t T B Hl H z Hz; cbn [visits] in H.
    - injection H as <-. exists []. split; [done|]. intros b. cbn. lia.
    - apply bind_Some in H as (t1 & H1 & H). unfold priors in Hl. apply fmap_Some in Hl as (x & Hx & Hlx).
      destruct (visit_taken A k q0 w t t1 x T HD Hx H1) as (a & Ha & Ht).
      destruct (visit_balanced O A k q0 w t t1 T B HD H1) as (T1 & B1 & _ & _ & G & _).
      assert (Hl1 : priors t1 0 = Some l). { destruct G as (_ & _ & _ & _ & G). apply G. unfold priors. rewrite Hx. cbn. by rewrite Hlx. }
      destruct (IH t1 T1 B1 Hl1 H z Hz) as (acts & Hacts & Htk). exists (a :: acts). split.
      + cbn [mapM]. rewrite (root_choice_priors k w z x) by (by rewrite Hz, Hlx). rewrite Ha. cbn. rewrite Hacts. done.
      + intros b. rewrite Htk, Ht. rewrite filter_cons. repeat case_decide; cbn; subst; try done; lia. }
  intros x t T B Hx Hpri H. by eapply Hgen.
Qed.

(** the evaluation of a node never reaches the value of its parent *)
Lemma visit_node_parent A k fuel w t n x q depth t' v :
  is_tree A (k_depth k) t -> t_nodes t !! n = Some x -> d_depth x = depth ->
  visit_node O fuel k w t n q depth = Some (t', v) ->
  forall i a r, t_returned t' = Some r -> out t' i a = Some r -> value t' i = value t i.
Proof.
  set (D := k_depth k). revert t n x q depth t' v. induction fuel as [|fuel IH]; intros t n x q depth t' v T Hn Hd H; [done|].
  pose proof (visit_node_post O A k (S fuel) w t n x q depth t' v T Hn Hd H) as (Tt' & _).
  cbn [visit_node] in H. unfold rd in H. rewrite Hn in H. cbn [mbind option_bind] in H. fold D in H.
  assert (Hnl : n < length (t_nodes t)) by (by eapply lookup_lt_Some).
  case_decide as HD.
  { unfold visit_leaf in H. cbv zeta in H. apply (inj Some) in H. apply (f_equal fst) in H. cbn [fst] in H.
    match type of H with context [with_q ?q x] => set (qq := q) in * end. subst t'. intros i a r Hr Ho. cbn in Hr. injection Hr as <-.
    destruct (it_child _ _ _ Tt' _ _ _ Ho) as (Hlt & _). unfold value. cbn. by rewrite list_lookup_insert_ne by lia. }
  cbv zeta in H. apply bind_Some in H as (index & Hix & H). apply bind_Some in H as (e & He & H). clear Hix.
  destruct (e_out e) as [c|] eqn:Eo.
  2: { unfold expand in H. case_decide as Hlen; [done|]. cbv zeta in H. apply (inj Some) in H. apply (f_equal fst) in H. cbn [fst] in H.
    match type of H with context [add_node ?y t] => set (y0 := y) in * end.
    match type of H with context [set_node n ?z _] => set (x' := z) in * end. subst t'. intros i a r Hr Ho. cbn in Hr. injection Hr as <-.
    destruct (it_child _ _ _ Tt' _ _ _ Ho) as (Hlt & _). unfold value. cbn. destruct (decide (i = n)) as [->|Hin].
    - rewrite list_lookup_insert by (rewrite app_length; lia). by rewrite Hn.
    - rewrite list_lookup_insert_ne by done. by rewrite lookup_app_l by lia. }
  set (qh := n_div O _ _) in H. apply bind_Some in H as ([t1 vn] & H1 & H).
  assert (Hout : out t n index = Some c) by (unfold out; rewrite Hn; cbn; by rewrite He).
  assert (Hdep : depth_of t n = Some depth) by (unfold depth_of; rewrite Hn; cbn; by rewrite Hd).
  destruct (it_child _ _ _ T _ _ _ Hout) as (Hlt & d & D1 & D2). rewrite Hdep in D1. injection D1 as <-.
  assert (exists y, t_nodes t !! c = Some y /\ d_depth y = S depth) as (y & Hy & Hdy).
  { unfold depth_of in D2. apply fmap_Some in D2 as (y & Hy & Ey). by exists y. }
  specialize (IH _ _ _ _ _ _ _ T Hy Hdy H1).
  destruct (visit_node_post O A k fuel _ _ _ _ _ _ _ _ T Hy Hdy H1) as (T1 & _ & P & Hr' & Hc & _).
  case_decide as Er; [by injection H as <- <-|].
  apply bind_Some in H as (r & Hr & H). pose proof (back_up_alike _ _ _ _ _ _ _ _ _ _ _ T1 H ltac:(lia)) as ((_ & Ao & _) & _ & Hret).
  intros i a r0 Hr0 Ho. rewrite Hret, Hr in Hr0. injection Hr0 as <-. rewrite Ao in Ho. rewrite <- (IH i a r Hr Ho). clear IH.
  rewrite Hr' in Hr. injection Hr as <-.
  assert (Hin : i <> n).
  { intros ->. destruct P as [|p P]; [by rewrite Hr' in Er|]. pose proof (final_elem c (p :: P) ltac:(done)) as Hf.
    pose proof (chain_prev _ _ _ _ _ _ _ _ T1 Hc Hf Ho) as Hz. apply elem_of_cons in Hz as [Hz|Hz]; [lia|]. pose proof (chain_lt _ _ _ _ _ T1 Hc _ Hz). lia. }
  unfold back_up in H. apply bind_Some in H as (x1 & Hx1 & H). apply bind_Some in H as (y1 & Hy1 & H).
  apply bind_Some in H as (z1 & Hz1 & H). cbv zeta in H. unfold rd in *. apply (inj Some) in H. apply (f_equal fst) in H. cbn [fst] in H.
  match type of H with context [with_q ?q x1] => set (qq := q) in * end. subst t'. unfold value. cbn.
  destruct (decide (i = c)) as [->|Hic].
  - rewrite list_lookup_insert by (rewrite insert_length; by eapply lookup_lt_Some). by rewrite Hy1.
  - rewrite !list_lookup_insert_ne by done. done.
Qed.
Lemma visit_parent A k q0 (w : draw) t t' i a r : is_tree A (k_depth k) t -> visit O k q0 t w = Some t' -> t_returned t' = Some r -> out t' i a = Some r ->
  value t' i = value t i.
Proof.
  intros T H Hr Ho. unfold visit in H. apply fmap_Some in H as ([t1 v] & H & ->). cbn [fst] in *.
  pose proof (it_root _ _ _ T) as H0. unfold depth_of in H0. apply fmap_Some in H0 as (x & Hx & Hdx). symmetry in Hdx.
  by eapply visit_node_parent.
Qed.
(** the first action is taken first at each node below the root *)
Lemma ucb_choice_fresh k t qhat (x : node) : (forall u, n_lt O u u = false) -> d_edges x <> [] -> Forall (fun e => e_out e = None) (d_edges x) ->
  ucb_choice O k t qhat x = Some 0.
Proof.
  intros Hirr Hne HF. unfold ucb_choice. destruct (d_edges x) as [|e0 es]; [done|]. apply list.Forall_cons in HF as [H0 HF].
  assert (E0 : ucb O k t qhat false e0 = Some qhat) by (unfold ucb; by rewrite H0). rewrite E0. cbn [mbind option_bind].
  assert (Hl : for_loop (length es) 0 (fun i s => e ← rd es i; u ← ucb O k t qhat true e; Some (if n_lt O s.2 u then (S i, u) else s)) (0, qhat) = Some (0, qhat)).
  { destruct (for_loop_inv (fun i s => s = (0, qhat)) (fun i s => e ← rd es i; u ← ucb O k t qhat true e; Some (if n_lt O s.2 u then (S i, u) else s)) (length es) 0 (0, qhat)) as (s & Hs & ->);
      [done| |done]. intros i s Hi ->. destruct (lookup_lt_is_Some_2 es i) as [e He]; [lia|]. exists (0, qhat). split; [|done].
    unfold rd. rewrite He. cbn [mbind option_bind]. unfold ucb. rewrite (proj1 (list.Forall_forall _ _) HF e) by (by eapply elem_of_list_lookup_2).
    cbn [mbind option_bind snd]. by rewrite Hirr. }
  rewrite Hl. done.
Qed.
End choice.
