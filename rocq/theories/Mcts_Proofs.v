(** Proofs about the search tree. *)
From Coq Require Import Reals Lra.
From Verif Require Import RealSum Sort_Model Mcts_Model Mcts_Spec BaseLemmas.
Open Scope nat_scope.

Section shape.
Context {F : Type} (O : num F).
Implicit Types t : tree (F := F).
Implicit Types x y : node (F := F).

Lemma out_lt t n a c : out t n a = Some c -> n < length (t_nodes t).
Proof. unfold out. intros H. apply bind_Some in H as (x & H & _). by eapply lookup_lt_Some. Qed.
Lemma depth_lt t n d : depth_of t n = Some d -> n < length (t_nodes t).
Proof. unfold depth_of. intros H. apply fmap_Some in H as (x & H & _). by eapply lookup_lt_Some. Qed.
Lemma depth_is_Some t n : n < length (t_nodes t) -> exists d, depth_of t n = Some d.
Proof. intros H. apply lookup_lt_is_Some in H as [x H]. exists (d_depth x). unfold depth_of. by rewrite H. Qed.
Lemma count_ge t n : length (t_nodes t) <= n -> count t n = 0.
Proof. intros H. unfold count. by rewrite lookup_ge_None_2. Qed.

(** the same tree up to counts, values and bounds *)
Definition alike t t' : Prop :=
  length (t_nodes t') = length (t_nodes t) /\ (forall n a, out t' n a = out t n a) /\ (forall n, depth_of t' n = depth_of t n)
  /\ (forall n, width t' n = width t n) /\ t_nedges t' = t_nedges t /\ (forall n, priors t' n = priors t n).
Lemma alike_refl t : alike t t. Proof. by repeat split. Qed.
Lemma alike_trans t1 t2 t3 : alike t1 t2 -> alike t2 t3 -> alike t1 t3.
Proof. intros (A & B & C & D & E & G) (A' & B' & C' & D' & E' & G'). repeat split; intros; etrans; eauto. Qed.
Lemma alike_tree A D t t' : alike t t' -> is_tree A D t -> is_tree A D t'.
Proof.
  intros (Hl & Ho & Hd & Hw & He & _) [H1 H2 H3 H4 H5 H6 H7]. split.
  - by rewrite Hd.
  - intros n w. rewrite Hw. apply H2.
  - intros n d. rewrite Hd. apply H3.
  - intros n a c. rewrite Ho. intros H. destruct (H4 _ _ _ H) as (? & d & ? & ?). split; [done|]. exists d. by rewrite !Hd.
  - intros c Hc. rewrite Hl. intros Hc'. destruct (H5 c Hc Hc') as (n & a & H). exists n, a. by rewrite Ho.
  - intros n a n' a' c. rewrite !Ho. apply H6.
  - by rewrite He, Hl.
Qed.
Lemma alike_bound q t : alike t (bound O q t). Proof. by repeat split. Qed.
Lemma alike_returned i t : alike t (set_returned i t). Proof. by repeat split. Qed.
Lemma alike_set i x x' t : t_nodes t !! i = Some x -> d_edges x' = d_edges x -> d_depth x' = d_depth x -> alike t (set_node i x' t).
Proof.
  intros Hi He Hd. unfold alike. cbn. rewrite insert_length. split; [done|]. split; [|split; [|split; [|split; [done|]]]].
  - intros n a. unfold out. cbn. destruct (decide (n = i)) as [->|Hn]; [|by rewrite list_lookup_insert_ne].
    rewrite list_lookup_insert by (by eapply lookup_lt_Some). rewrite Hi. cbn. by rewrite He.
  - intros n. unfold depth_of. cbn. destruct (decide (n = i)) as [->|Hn]; [|by rewrite list_lookup_insert_ne].
    rewrite list_lookup_insert by (by eapply lookup_lt_Some). rewrite Hi. cbn. by rewrite Hd.
  - intros n. unfold width. cbn. destruct (decide (n = i)) as [->|Hn]; [|by rewrite list_lookup_insert_ne].
    rewrite list_lookup_insert by (by eapply lookup_lt_Some). rewrite Hi. cbn. by rewrite He.
  - intros n. unfold priors. cbn. destruct (decide (n = i)) as [->|Hn]; [|by rewrite list_lookup_insert_ne].
    rewrite list_lookup_insert by (by eapply lookup_lt_Some). rewrite Hi. cbn. by rewrite He.
Qed.
Lemma count_set i x t n : i < length (t_nodes t) -> count (set_node i x t) n = if decide (n = i) then d_count x else count t n.
Proof.
  intros Hi. unfold count. cbn. case_decide as E; [subst; by rewrite list_lookup_insert|by rewrite list_lookup_insert_ne].
Qed.

(** everything of t is in t', which may have more nodes *)
Definition grows t t' : Prop :=
  length (t_nodes t) <= length (t_nodes t') /\ (forall n d, depth_of t n = Some d -> depth_of t' n = Some d)
  /\ (forall n a c, out t n a = Some c -> out t' n a = Some c)
  /\ (forall n a c, out t' n a = Some c -> c < length (t_nodes t) -> out t n a = Some c)
  /\ (forall n l, priors t n = Some l -> priors t' n = Some l).
Lemma grows_alike t t' : alike t t' -> grows t t'.
Proof.
  intros (Hl & Ho & Hd & _ & _ & Hp). split; [by rewrite Hl|]. split; [intros n d; by rewrite Hd|].
  split; [intros n a c; by rewrite Ho|]. split; [intros n a c; by rewrite Ho|]. intros n l. by rewrite Hp.
Qed.
Lemma grows_trans t1 t2 t3 : grows t1 t2 -> grows t2 t3 -> grows t1 t3.
Proof.
  intros (A & B & C & D & E) (A' & B' & C' & D' & E'). split; [lia|]. split; [eauto|]. split; [eauto|]. split; [|eauto].
  intros n a c H Hc. apply D; [|done]. apply D'; [done|lia].
Qed.

(** each node of P is a child of the one before, the first one of n *)
Fixpoint chain t (n : nat) (P : list nat) : Prop :=
  match P with [] => True | c :: P => (exists a, out t n a = Some c) /\ chain t c P end.
Lemma chain_grows t t' n P : grows t t' -> chain t n P -> chain t' n P.
Proof.
  intros G. revert n. induction P as [|c P IH]; intros n; [done|]. intros ((a & Ha) & Hc). split; [|by apply IH]. exists a.
  destruct G as (_ & _ & G & _). by apply G.
Qed.
Lemma chain_lt A D t n P : is_tree A D t -> chain t n P -> forall m, m ∈ P -> n < m.
Proof.
  intros T. revert n. induction P as [|c P IH]; intros n; [intros _ m Hm; by apply elem_of_nil in Hm|].
  intros ((a & Ha) & Hc) m Hm. destruct (it_child _ _ _ T _ _ _ Ha) as [Hlt _].
  apply elem_of_cons in Hm as [->|Hm]; [done|]. specialize (IH _ Hc _ Hm). lia.
Qed.
Definition final (n : nat) (P : list nat) : nat := default n (list.last P).
Lemma final_cons n c P : final n (c :: P) = final c P.
Proof. unfold final. destruct P; [done|]. rewrite last_cons_cons. destruct (list.last (n0 :: P)) eqn:E; [done|]. by apply last_None in E. Qed.
Lemma final_elem n P : P <> [] -> final n P ∈ P.
Proof. unfold final. intros H. destruct (list.last P) eqn:E; [by apply last_Some_elem_of|by apply last_None in E]. Qed.

(** the nodes a frame counts *)
Definition counted (n : nat) (P : list nat) : list nat := match P with [] => [n] | _ => P end.
Definition post (A D : nat) t (n depth : nat) t' : Prop :=
  is_tree A D t' /\ grows t t' /\ exists P, t_returned t' = Some (final n P) /\ chain t' n P /\ (D <= depth <-> P = [])
  /\ (forall i, count t' i = count t i + if decide (i ∈ counted n P) then 1 else 0)
  /\ (depth_of t (final n P) = Some D \/ (final n P = length (t_nodes t) /\ outs t' (final n P) = []))
  /\ length (t_nodes t') <= S (length (t_nodes t))
  /\ (length (t_nodes t') = S (length (t_nodes t)) -> final n P = length (t_nodes t)).

Lemma depth_insert_edges t n x es i : t_nodes t !! n = Some x -> depth_of (set_node n (with_edges es x) t) i = depth_of t i.
Proof.
  intros H. unfold depth_of. cbn. destruct (decide (i = n)) as [->|Hn]; [|by rewrite list_lookup_insert_ne].
  rewrite list_lookup_insert by (by eapply lookup_lt_Some). by rewrite H.
Qed.

Lemma omap_fresh (l : list F) : omap e_out (fresh_edges l) = [].
Proof. unfold fresh_edges. induction l; [done|]. cbn. done. Qed.

Lemma expand_post A D k (w : draw) t n x index e depth t' v :
  is_tree A D t -> t_nodes t !! n = Some x -> d_edges x !! index = Some e -> e_out e = None -> d_depth x = depth -> depth < D ->
  expand O k w t n x index e depth = Some (t', v) -> post A D t n depth t'.
Proof.
  intros T Hn He Ho Hd HD H. unfold expand in H. case_decide as Hlen; [done|]. cbv zeta in H.
  set (new := length (t_nodes t)) in *.
  match type of H with context [add_node ?y t] => set (y0 := y) in * end.
  injection H as <- <-.
  set (x' := with_edges _ x). set (t2 := bound O (d_q y0) (add_node y0 t)).
  assert (Hn2 : n < new) by (by eapply lookup_lt_Some).
  assert (EA : length (d_edges x) = A) by (eapply (it_width _ _ _ T n); unfold width; by rewrite Hn).
  match goal with |- post _ _ _ _ _ ?tt => set (t' := tt) end.
  assert (HN : t_nodes t' = <[n := x']> (t_nodes t ++ [y0])) by done.
  assert (HNn : t_nodes t' !! n = Some x') by (rewrite HN; apply list_lookup_insert; rewrite app_length; cbn; lia).
  assert (HNnew : t_nodes t' !! new = Some y0) by (rewrite HN, list_lookup_insert_ne, lookup_app_r by lia; by rewrite Nat.sub_diag).
  assert (HNo : forall i, i <> n -> i <> new -> t_nodes t' !! i = t_nodes t !! i).
  { intros i H1 H2. rewrite HN, list_lookup_insert_ne by done. destruct (decide (i < new)); [by rewrite lookup_app_l|].
    rewrite (lookup_ge_None_2 (t_nodes t)) by lia. apply lookup_ge_None_2. rewrite app_length. cbn. lia. }
  assert (HL : length (t_nodes t') = S new) by (rewrite HN, insert_length, app_length; cbn; lia).
  assert (Hout : forall i a, out t' i a = if decide (i = n /\ a = index) then Some new else out t i a).
  { intros i a. unfold out. destruct (decide (i = n)) as [->|Hi].
    - rewrite HNn, Hn. cbn. destruct (decide (a = index)) as [->|Ha].
      + rewrite decide_True by done. rewrite list_lookup_insert by (by eapply lookup_lt_Some). done.
      + rewrite decide_False by (intros [_ ?]; done). by rewrite list_lookup_insert_ne.
    - rewrite decide_False by (intros [? _]; done). destruct (decide (i = new)) as [->|Hi'].
      + rewrite HNnew. rewrite (lookup_ge_None_2 (t_nodes t)) by done. cbn. unfold fresh_edges. rewrite list_lookup_fmap.
        by destruct (w_policy w !! a).
      + by rewrite HNo. }
  assert (Hnone : out t n index = None) by (unfold out; rewrite Hn; cbn; by rewrite He).
  assert (Hdep : forall i, depth_of t' i = if decide (i = new) then Some (S depth) else depth_of t i).
  { intros i. unfold depth_of. destruct (decide (i = new)) as [->|Hi]; [by rewrite HNnew|]. destruct (decide (i = n)) as [->|Hi']; [by rewrite HNn, Hn|by rewrite HNo]. }
  assert (Hdn : depth_of t n = Some depth) by (unfold depth_of; rewrite Hn; cbn; by rewrite Hd).
  assert (T' : is_tree A D t').
  { destruct T as [T1 T2 T3 T4 T5 T6 T7]. split.
    - rewrite Hdep. rewrite decide_False by lia. done.
    - intros i wd. unfold width. destruct (decide (i = new)) as [->|Hi].
      + rewrite HNnew. cbn. unfold fresh_edges. rewrite fmap_length. intros [= <-]. lia.
      + destruct (decide (i = n)) as [->|Hi']; [rewrite HNn; cbn; rewrite insert_length; intros [= <-]; done|]. rewrite HNo by done. apply T2.
    - intros i d. rewrite Hdep. case_decide; [intros [= <-]; lia|apply T3].
    - intros i a c. rewrite Hout. case_decide as E.
      + destruct E as [-> ->]. intros [= <-]. split; [done|]. exists depth. rewrite !Hdep. rewrite (decide_False (P := n = new)) by lia. rewrite decide_True by done. done.
      + intros H. destruct (T4 _ _ _ H) as (Hlt & d & D1 & D2). split; [done|]. exists d. rewrite !Hdep.
        apply depth_lt in D1 as L1. apply depth_lt in D2 as L2. rewrite !decide_False by lia. done.
    - intros c Hc. rewrite HL. intros Hc'. destruct (decide (c = new)) as [->|Hi].
      + exists n, index. rewrite Hout. by rewrite decide_True.
      + destruct (T5 c Hc ltac:(lia)) as (m & a & H). exists m, a. rewrite Hout. rewrite decide_False; [done|]. intros [-> ->]. congruence.
    - intros i a i' a' c. rewrite !Hout.
      assert (Hold : forall i a, out t i a = Some new -> False). { intros i0 a0 H0. destruct (T4 _ _ _ H0) as (_ & d & _ & D2). apply depth_lt in D2. lia. }
      repeat case_decide; intros E1 E2; try (injection E1 as <-); try (injection E2 as <-); try (by exfalso; eapply Hold); [destruct_and!; by subst|by eapply T6].
    - change (t_nedges t') with (t_nedges t + length (fresh_edges (w_policy w))). unfold fresh_edges. rewrite fmap_length, Hlen, HL, T7. lia. }
  split; [done|]. split.
  { split; [lia|]. split; [|split; [|split]].
    - intros i d H. rewrite Hdep. apply depth_lt in H as L. rewrite decide_False by lia. done.
    - intros i a c H. rewrite Hout. rewrite decide_False; [done|]. intros [-> ->]. congruence.
    - intros i a c. rewrite Hout. case_decide; [|done]. intros [= <-]. lia.
    - intros i l. unfold priors. destruct (decide (i = new)) as [->|Hi]; [rewrite (lookup_ge_None_2 (t_nodes t)) by done; done|].
      destruct (decide (i = n)) as [->|Hi']; [|by rewrite HNo]. rewrite HNn, Hn. cbn. intros [= <-]. f_equal.
      rewrite list_fmap_insert. cbn. apply list_insert_id. by rewrite list_lookup_fmap, He. }
  exists [new]. split; [done|]. split; [split; [|done]; exists index; rewrite Hout; by rewrite decide_True|]. split; [split; [lia|done]|].
  split; [|split; [|split]].
  - intros i. cbn [counted]. unfold count at 1. destruct (decide (i = new)) as [->|Hi].
    + rewrite HNnew. cbn. rewrite decide_True by (by apply elem_of_list_singleton). rewrite count_ge by done. done.
    + rewrite decide_False by (by rewrite elem_of_list_singleton). rewrite Nat.add_0_r.
      destruct (decide (i = n)) as [->|Hi']; [unfold count; by rewrite HNn, Hn|unfold count; by rewrite HNo].
  - right. split; [done|]. cbn. unfold outs. rewrite HNnew. cbn. apply omap_fresh.
  - lia.
  - done.
Qed.

Lemma back_up_alike A D k t n c r vn t' v :
  is_tree A D t -> back_up O k t n c r vn = Some (t', v) -> n <> c ->
  alike t t' /\ (forall i, count t' i = count t i + if decide (i = c) then 1 else 0) /\ t_returned t' = t_returned t.
Proof.
  intros T H Hne. unfold back_up in H. apply bind_Some in H as (x & Hx & H). apply bind_Some in H as (y & Hy & H).
  apply bind_Some in H as (z & Hz & H). cbv zeta in H. unfold rd in *. apply (inj Some) in H.
  match type of H with context [with_q ?q x] => set (qq := q) in * end. apply (f_equal fst) in H. cbn [fst] in H. subst t'.
  assert (A1 : alike t (set_node n (with_q qq x) t)) by (by eapply alike_set).
  assert (Hy' : t_nodes (set_node n (with_q qq x) t) !! c = Some y) by (cbn; by rewrite list_lookup_insert_ne).
  split; [|split; [|done]].
  - eapply alike_trans; [exact A1|]. eapply alike_trans; [|apply alike_bound]. by eapply alike_set.
  - intros i. change (count (bound O (d_q y) (set_node c (with_count (S (d_count y)) y) (set_node n (with_q qq x) t))) i)
      with (count (set_node c (with_count (S (d_count y)) y) (set_node n (with_q qq x) t)) i).
    rewrite count_set by (cbn; rewrite insert_length; by eapply lookup_lt_Some). case_decide as E.
    + subst. cbn. unfold count. rewrite Hy. cbn. lia.
    + rewrite count_set by (by eapply lookup_lt_Some). case_decide as E2; [|lia]. subst. cbn. unfold count. rewrite Hx. cbn. lia.
Qed.

Lemma visit_node_post A k fuel (w : draw) t n x q depth t' v :
  is_tree A (k_depth k) t -> t_nodes t !! n = Some x -> d_depth x = depth ->
  visit_node O fuel k w t n q depth = Some (t', v) -> post A (k_depth k) t n depth t'.
Proof.
  set (D := k_depth k). revert t n x q depth t' v. induction fuel as [|fuel IH]; intros t n x q depth t' v T Hn Hd H; [done|].
  cbn [visit_node] in H. unfold rd in H. rewrite Hn in H. cbn [mbind option_bind] in H. fold D in H.
  assert (Hdep : depth_of t n = Some depth) by (unfold depth_of; rewrite Hn; cbn; by rewrite Hd).
  case_decide as HD.
  { unfold visit_leaf in H. cbv zeta in H. apply (inj Some) in H. apply (f_equal fst) in H. cbn [fst] in H.
    match type of H with context [with_q ?q x] => set (qq := q) in * end. subst t'.
    assert (Al : alike t (bound O qq (set_node n (with_count (S (d_count x)) (with_q qq x)) (set_returned n t)))).
    { eapply alike_trans; [|apply alike_bound]. eapply alike_trans; [apply (alike_returned n)|]. by eapply alike_set. }
    split; [by eapply alike_tree|]. split; [by apply grows_alike|]. exists []. split; [done|]. split; [done|]. split; [done|].
    split; [|split; [|split]].
    - intros i. match goal with |- count ?tt i = _ => change (count tt i) with (count (set_node n (with_count (S (d_count x)) (with_q qq x)) (set_returned n t)) i) end.
      rewrite count_set by (by eapply lookup_lt_Some). cbn [counted]. case_decide as E.
      + subst. rewrite decide_True by (by apply elem_of_list_singleton). unfold count. rewrite Hn. cbn. lia.
      + rewrite decide_False by (by rewrite elem_of_list_singleton). unfold count. cbn. lia.
    - left. cbn. rewrite Hdep. f_equal. pose proof (it_depth _ _ _ T _ _ Hdep). lia.
    - cbn. rewrite insert_length. lia.
    - cbn. rewrite insert_length. lia. }
  cbv zeta in H. apply bind_Some in H as (index & Hix & H). apply bind_Some in H as (e & He & H).
  destruct (e_out e) as [c|] eqn:Eo; [|eapply expand_post; try done; lia].
  set (qh := n_div O _ _) in H. apply bind_Some in H as ([t1 vn] & H1 & H).
  assert (Hout : out t n index = Some c) by (unfold out; rewrite Hn; cbn; by rewrite He).
  destruct (it_child _ _ _ T _ _ _ Hout) as (Hlt & d & D1 & D2). rewrite Hdep in D1. injection D1 as <-.
  assert (exists y, t_nodes t !! c = Some y /\ d_depth y = S depth) as (y & Hy & Hdy).
  { unfold depth_of in D2. apply fmap_Some in D2 as (y & Hy & Ey). by exists y. }
  destruct (IH _ _ _ _ _ _ _ T Hy Hdy H1) as (T1 & G1 & P & Hr & Hc & Hp & Hcnt & Hfin & Hl1 & Hl2).
  assert (Hch : out t1 n index = Some c) by (destruct G1 as (_ & _ & G & _); by apply G).
  case_decide as Er.
  - injection H as <- <-. rewrite Hr in Er. injection Er as Er.
    assert (P = []) as ->.
    { destruct P as [|p P]; [done|]. exfalso. pose proof (final_elem c (p :: P) ltac:(done)) as Hf. pose proof (chain_lt _ _ _ _ _ T1 Hc _ Hf). lia. }
    split; [done|]. split; [done|]. exists [c]. split; [done|]. split; [split; [by exists index|done]|]. split; [split; [lia|done]|]. done.
  - rewrite Hr in Er. assert (Hpn : P <> []) by (intros ->; by apply Er). rewrite Hr in H. cbn [mbind option_bind] in H.
    destruct (back_up_alike _ _ _ _ _ _ _ _ _ _ T1 H ltac:(lia)) as (Al & Hc2 & Hr2).
    split; [by eapply alike_tree|]. split; [eapply grows_trans; [exact G1|by apply grows_alike]|]. exists (c :: P).
    rewrite final_cons. split; [by rewrite Hr2|]. pose proof (grows_alike _ _ Al) as G2.
    split; [split; [exists index; destruct Al as (_ & Ao & _); by rewrite Ao|by eapply chain_grows]|]. split; [split; [lia|done]|].
    destruct Al as (Al & Ao & _ & _ & _ & _).
    split; [|split; [|split]].
    + intros i. rewrite Hc2, Hcnt. cbn [counted]. destruct P as [|p P]; [done|]. cbn [counted].
      destruct (decide (i = c)) as [->|Hi].
      * rewrite (decide_True (P := c ∈ c :: _)) by apply elem_of_list_here. rewrite decide_False; [lia|].
        intros Hx. pose proof (chain_lt _ _ _ _ _ T1 Hc _ Hx). lia.
      * destruct (decide (i ∈ p :: P)) as [Hx|Hx].
        -- rewrite decide_True by (by apply elem_of_list_further). lia.
        -- rewrite decide_False; [lia|]. intros [?|?]%elem_of_cons; done.
    + destruct Hfin as [?|[? Hfo]]; [by left|right]. split; [done|]. destruct P as [|p P]; [done|].
      unfold outs in *. destruct (t_nodes t' !! final c (p :: P)) as [z'|] eqn:Ez; [|done].
      apply elem_of_nil_inv. intros m Hm. apply elem_of_list_omap in Hm as (e' & Hin & Hm). apply elem_of_list_lookup in Hin as (a & Ha).
      assert (Hx : out t' (final c (p :: P)) a = Some m) by (unfold out; rewrite Ez; cbn; by rewrite Ha).
      rewrite Ao in Hx. unfold out in Hx. destruct (t_nodes t1 !! final c (p :: P)) as [z|] eqn:Ez1; [|done].
      cbn in Hx. apply bind_Some in Hx as (e1 & Ha1 & Hm1).
      assert (Hbad : m ∈ omap e_out (d_edges z)) by (apply elem_of_list_omap; exists e1; split; [by eapply elem_of_list_lookup_2|done]).
      rewrite Hfo in Hbad. by apply elem_of_nil in Hbad.
    + by rewrite Al.
    + by rewrite Al.
Qed.
End shape.
