(** compute_all_nodes_edges finds every node and every edge once; init_aco succeeds. *)
From Verif Require Import BaseLemmas Aco_Spec Aco_Proofs Aco2_Proofs Aco3_Proofs.
Open Scope nat_scope.

Section each.
Context {F : Type}.
Implicit Types g : graph F.
Lemma on_node_Some (f : node F -> node F) u g n : g_nodes g !! u = Some n -> on_node f u g = Some (Graph (<[u := f n]> (g_nodes g)) (g_edges g)).
Proof. intros E. unfold on_node, rd. rewrite E. cbn [mbind option_bind]. rewrite wr_Some by (by eapply lookup_lt_Some). done. Qed.
Lemma on_edge_Some (f : edge F -> edge F) u g n : g_edges g !! u = Some n -> on_edge f u g = Some (Graph (g_nodes g) (<[u := f n]> (g_edges g))).
Proof. intros E. unfold on_edge, rd. rewrite E. cbn [mbind option_bind]. rewrite wr_Some by (by eapply lookup_lt_Some). done. Qed.
Lemma each_node (f : node F -> node F) l g : NoDup l -> Forall (fun u => u < length (g_nodes g)) l ->
  each (on_node f) l g = Some (Graph (imap (fun u n => if decide (u ∈ l) then f n else n) (g_nodes g)) (g_edges g)).
Proof.
  revert g. induction l as [|u l IH]; intros g HN Hl; cbn [each].
  - f_equal. destruct g as [ns es]. cbn. f_equal. symmetry. etrans; [|apply list_fmap_id]. rewrite <- imap_const. apply imap_ext. intros i x _. cbn. done.
  - apply list.NoDup_cons in HN as [Hu HN]. apply list.Forall_cons in Hl as [Hlu Hl]. 
    destruct (lookup_lt_is_Some_2 _ _ Hlu) as [n En]. rewrite (on_node_Some f u g n En). cbn [mbind option_bind].
    rewrite IH; [|done|cbn; by setoid_rewrite insert_length]. cbn [g_nodes g_edges]. do 2 f_equal. apply list_eq. intros i. rewrite !list_lookup_imap.
    destruct (decide (i = u)) as [->|Hne].
    + rewrite list_lookup_insert by done. rewrite En. cbn. rewrite decide_False by done. rewrite decide_True by left. done.
    + rewrite list_lookup_insert_ne by done. destruct (g_nodes g !! i); [|done]. cbn. f_equal. destruct (decide (i ∈ l)).
      * rewrite decide_True by (by right). done.
      * rewrite decide_False; [done|]. intros E. by apply elem_of_cons in E as [|].
Qed.
Lemma each_edge (f : edge F -> edge F) l g : NoDup l -> Forall (fun u => u < length (g_edges g)) l ->
  each (on_edge f) l g = Some (Graph (g_nodes g) (imap (fun u n => if decide (u ∈ l) then f n else n) (g_edges g))).
Proof.
  revert g. induction l as [|u l IH]; intros g HN Hl; cbn [each].
  - f_equal. destruct g as [ns es]. cbn. f_equal. symmetry. etrans; [|apply list_fmap_id]. rewrite <- imap_const. apply imap_ext. intros i x _. cbn. done.
  - apply list.NoDup_cons in HN as [Hu HN]. apply list.Forall_cons in Hl as [Hlu Hl]. 
    destruct (lookup_lt_is_Some_2 _ _ Hlu) as [n En]. rewrite (on_edge_Some f u g n En). cbn [mbind option_bind].
    rewrite IH; [|done|cbn; by setoid_rewrite insert_length]. cbn [g_nodes g_edges]. do 2 f_equal. apply list_eq. intros i. rewrite !list_lookup_imap.
    destruct (decide (i = u)) as [->|Hne].
    + rewrite list_lookup_insert by done. rewrite En. cbn. rewrite decide_False by done. rewrite decide_True by left. done.
    + rewrite list_lookup_insert_ne by done. destruct (g_edges g !! i); [|done]. cbn. f_equal. destruct (decide (i ∈ l)).
      * rewrite decide_True by (by right). done.
      * rewrite decide_False; [done|]. intros E. by apply elem_of_cons in E as [|].
Qed.
Lemma imap_all {A B} (f h : A -> B) l (v : list A) : l ≡ₚ seq 0 (length v) -> imap (fun u n => if decide (u ∈ l) then f n else h n) v = f <$> v.
Proof.
  intros E. apply list_eq. intros i. rewrite list_lookup_imap, list_lookup_fmap. destruct (v !! i) eqn:Ei; [|done]. cbn. f_equal.
  rewrite decide_True; [done|]. rewrite E. apply elem_of_seq. apply lookup_lt_Some in Ei. lia.
Qed.
Lemma perm_seq_ok l n : l ≡ₚ seq 0 n -> NoDup l /\ Forall (fun u => u < n) l.
Proof.
  intros E. split; [rewrite E; apply NoDup_seq|]. rewrite E. apply list.Forall_forall. intros u Hu. apply elem_of_seq in Hu. lia.
Qed.
Lemma each_all_nodes (f : node F -> node F) l g : l ≡ₚ seq 0 (length (g_nodes g)) -> each (on_node f) l g = Some (Graph (f <$> g_nodes g) (g_edges g)).
Proof. intros E. destruct (perm_seq_ok _ _ E). rewrite each_node by done. rewrite imap_all by done. done. Qed.
Lemma each_all_edges (f : edge F -> edge F) l g : l ≡ₚ seq 0 (length (g_edges g)) -> each (on_edge f) l g = Some (Graph (g_nodes g) (f <$> g_edges g)).
Proof. intros E. destruct (perm_seq_ok _ _ E). rewrite each_edge by done. rewrite imap_all by done. done. Qed.

(** the graph with the flags of V set *)
Definition fl (V : list nat) (g : graph F) : graph F := Graph (imap (fun u n => set_flag (bool_decide (u ∈ V)) n) (g_nodes g)) (g_edges g).
Lemma fl_lookup V g u : g_nodes (fl V g) !! u = set_flag (bool_decide (u ∈ V)) <$> g_nodes g !! u.
Proof. unfold fl. cbn [g_nodes]. rewrite list_lookup_imap. done. Qed.
Lemma fl_length V g : length (g_nodes (fl V g)) = length (g_nodes g).
Proof. apply imap_length. Qed.

Lemma visit_ok g ts rows : by_rows g ts rows -> forall fuel p r u N E, rows !! p = Some r -> u ∈ r.2 -> length rows - p <= fuel ->
  exists W E', visit fuel u (fl N g, N, E) = Some (fl (N ++ W) g, N ++ W, E ++ E') /\
    (NoDup N -> NoDup (N ++ W)) /\ u ∈ N ++ W /\ E' ≡ₚ (W ≫= idx_out ts) /\ (forall x t, x ∈ W -> t ∈ from_ x ts -> t.1.2 ∈ N ++ W) /\
    (forall x, x ∈ W -> x ∈ rows_nodes rows).
Proof.
  intros Hby. induction fuel as [|fuel IH]; intros p r u N E Hp Hu Hf; [apply lookup_lt_Some in Hp; lia|]. cbn [visit].
  destruct (node_rows _ _ _ _ _ _ Hby Hp Hu) as [n En]. unfold rd. rewrite fl_lookup, En. cbn [fmap option_fmap option_map mbind option_bind set_flag o_flag o_outputs].
  case_bool_decide as Hin.
  - exists [], []. rewrite !app_nil_r. repeat split; try done; intros; by (exfalso; eapply not_elem_of_nil).
  - assert (Hlt : u < length (g_nodes g)) by (by eapply lookup_lt_Some).
    rewrite wr_Some by (rewrite fl_length; done). cbn [mbind option_bind].
    assert (Eg : Graph (<[u := set_flag true (set_flag false n)]> (g_nodes (fl N g))) (g_edges (fl N g)) = fl (N ++ [u]) g).
    { unfold fl. cbn [g_nodes g_edges]. f_equal. apply list_eq. intros i. rewrite list_lookup_imap. destruct (decide (i = u)) as [->|Hne].
      - rewrite list_lookup_insert by (rewrite imap_length; done). rewrite En. cbn. rewrite bool_decide_eq_true_2 by (apply elem_of_app; right; left). done.
      - rewrite list_lookup_insert_ne, list_lookup_imap by done. destruct (g_nodes g !! i); [|done]. cbn. do 2 f_equal. apply bool_decide_ext.
        rewrite elem_of_app, elem_of_list_singleton. naive_solver. }
    assert (Eo := proj1 (proj2 (proj1 Hby) u n En)). pose proof (idx_out_spec ts u) as Hspec. rewrite <- Eo in Hspec.
    set (P := fun i (st : graph F * list nat * list nat) => exists W E', st = (fl (N ++ u :: W) g, N ++ u :: W, E ++ E') /\
      (NoDup N -> NoDup (N ++ u :: W)) /\ E' ≡ₚ take i (o_outputs n) ++ (W ≫= idx_out ts) /\
      (forall x t, x ∈ W -> t ∈ from_ x ts -> t.1.2 ∈ N ++ u :: W) /\ (forall t, t ∈ take i (from_ u ts) -> t.1.2 ∈ N ++ u :: W) /\
      (forall x, x ∈ W -> x ∈ rows_nodes rows)).
    match goal with |- context [for_loop ?c ?i ?b ?s] => destruct (for_loop_inv P b c i s) as (st & Est & W & E' & -> & H1 & H2 & H3 & H4 & H5) end.
    + exists [], []. split.
      { change (set_flag false n) with (set_flag false n) in Eg. f_equal; [f_equal|by rewrite app_nil_r]. rewrite <- Eg. done. }
      split. { intros HN. apply NoDup_app. split; [done|]. split; [|apply NoDup_singleton]. intros x Hx Hx'. apply elem_of_list_singleton in Hx' as ->. done. }
      split; [done|]. repeat split; intros; by (exfalso; eapply not_elem_of_nil).
    + intros i st Hi (W & E' & -> & H1 & H2 & H3 & H4 & H5). cbn [fst snd].
      destruct (lookup_lt_is_Some_2 (o_outputs n) i ltac:(lia)) as [e Ee]. rewrite Ee. cbn [mbind option_bind].
      destruct (Forall2_lookup_l _ _ _ _ _ Hspec Ee) as (t & Et & Ets).
      destruct (proj1 Hby) as [Htri _]. assert (Ey := Ets). rewrite <- Htri, list_lookup_fmap in Ey. destruct (g_edges g !! e) as [y|] eqn:Ege; [|done].
      cbn in Ey. injection Ey as Ey. cbn [fl g_edges]. rewrite Ege. cbn [mbind option_bind].
      destruct (proj2 Hby p r u Hp Hu) as [Efrom _]. assert (Htin := elem_of_list_lookup_2 _ _ _ Et). rewrite Efrom in Htin.
      destruct (rows !! S p) as [r'|] eqn:Hp'; [|by apply not_elem_of_nil in Htin]. cbn in Htin. apply elem_of_list_fmap in Htin as (c & -> & Hc).
      assert (g_out y = c) as -> by (unfold triple in Ey; by injection Ey).
      destruct (IH (S p) r' c (N ++ u :: W) ((E ++ E') ++ [e]) Hp' Hc ltac:(lia)) as (W' & E2 & -> & K1 & K2 & K3 & K4 & K5).
      eexists. split; [done|]. exists (W ++ W'), (E' ++ [e] ++ E2). rewrite <- !app_assoc. cbn [app].
      assert (EW : N ++ u :: W ++ W' = (N ++ u :: W) ++ W') by (rewrite <- app_assoc; done). rewrite EW.
      split; [done|]. split; [auto|]. split.
      { rewrite (take_S_r _ _ e Ee), bind_app, K3. rewrite H2. solve_Permutation. }
      split. { intros x t Hx Ht. apply elem_of_app in Hx as [Hx|Hx]; [apply elem_of_app; left; eauto|eauto]. }
      split. { intros t Ht. rewrite (take_S_r _ _ _ Et) in Ht. apply elem_of_app in Ht as [Ht|Ht]; [apply elem_of_app; left; eauto|].
               apply elem_of_list_singleton in Ht as ->. cbn. done. }
      intros x Hx. apply elem_of_app in Hx as [Hx|Hx]; eauto.
    + cbn [plus] in *. rewrite Est. rewrite take_ge in H2 by lia. rewrite take_ge in H4 by (rewrite <- (Forall2_length _ _ _ Hspec); lia).
      exists (u :: W), E'. split; [done|]. split; [done|]. split; [apply elem_of_app; right; left|]. split; [rewrite bind_cons, <- Eo; done|].
      split. { intros x t Hx Ht. apply elem_of_cons in Hx as [->|Hx]; eauto. }
      intros x Hx. apply elem_of_cons in Hx as [->|Hx]; [by eapply elem_rows|eauto].
Qed.

Lemma bind_idx_NoDup ts N : NoDup N -> NoDup (N ≫= idx_out ts).
Proof.
  induction N as [|u N IH]; intros HN; [constructor|]. apply list.NoDup_cons in HN as [Hu HN]. rewrite bind_cons. apply NoDup_app. split; [apply idx_out_NoDup|]. split; [|auto].
  intros e He He'. apply elem_idx_out in He as (t & Et & Etu). apply elem_of_list_bind in He' as (v & Hv & Hv'). apply elem_idx_out in Hv as (t' & Et' & Etv). congruence.
Qed.
Lemma collect_ok (O : num F) bs ts rows r0 : lay bs ts rows -> rows !! 0 = Some (r0, [0]) ->
  exists nodes edges, collect 0 (mk O bs ts) = Some (mk O bs ts, nodes, edges) /\ nodes ≡ₚ seq 0 (length bs) /\ edges ≡ₚ seq 0 (length ts) /\ edges ≡ₚ (nodes ≫= idx_out ts).
Proof.
  intros HL H0. assert (Hby : by_rows (mk O bs ts) ts rows).
  { pose proof (lay_by_rows O bs ts rows bs [] HL ltac:(lia) ltac:(done)) as Hb. by rewrite app_nil_r in Hb. }
  set (g := mk O bs ts) in *. assert (Lg : length (g_nodes g) = length bs) by apply mk_length.
  assert (Le : length (g_edges g) = length ts) by apply fmap_length.
  assert (E0 : fl [] g = g).
  { unfold fl, g, mk. cbn [g_nodes g_edges]. f_equal. apply list_eq. intros i. rewrite !list_lookup_imap. destruct (bs !! i); done. }
  destruct (visit_ok g ts rows Hby (S (length (g_nodes g))) 0 _ 0 [] [] H0 ltac:(left)) as (N & E & Ev & HN & H00 & HE & Hcl & Hsub).
  { pose proof (rows_count _ _ _ HL). lia. }
  cbn [app] in *. specialize (HN ltac:(constructor)). rewrite E0 in Ev. unfold collect. rewrite Ev. cbn [mbind option_bind].
  assert (Hall : forall p r u, rows !! p = Some r -> u ∈ r.2 -> u ∈ N).
  { induction p as [|p IHp]; intros r u Hp Hu.
    - rewrite H0 in Hp. injection Hp as <-. apply elem_of_list_singleton in Hu as ->. done.
    - destruct (lookup_lt_is_Some_2 rows p) as [r' Hp']; [apply lookup_lt_Some in Hp; lia|].
      pose proof (lay_ne _ _ _ HL) as Hne. rewrite list.Forall_forall in Hne. specialize (Hne r' (elem_of_list_lookup_2 _ _ _ Hp')).
      destruct r'.2 as [|x l'] eqn:El; [done|]. assert (Hx : x ∈ r'.2) by (rewrite El; left). specialize (IHp _ _ Hp' Hx).
      assert (Ht : (x, u, r.1) ∈ from_ x ts).
      { destruct (proj2 Hby p r' x Hp' Hx) as [-> _]. rewrite Hp. cbn. apply elem_of_list_fmap. eauto. }
      apply (Hcl _ _ IHp) in Ht. done. }
  assert (PN : N ≡ₚ seq 0 (length bs)).
  { rewrite <- (lay_nodes _ _ _ HL). apply NoDup_Permutation; [done|by eapply lay_NoDup|]. intros x. split; [auto|].
    intros Hx. apply rows_elem in Hx as (p & r & Hp & Hr). eauto. }
  assert (PE : E ≡ₚ seq 0 (length ts)).
  { rewrite HE. apply NoDup_Permutation; [by apply bind_idx_NoDup|apply NoDup_seq|]. intros e. rewrite elem_of_list_bind, elem_of_seq. split.
    - intros (u & He & _). apply elem_idx_out in He as (t & Et & _). apply lookup_lt_Some in Et. lia.
    - intros He. destruct (lookup_lt_is_Some_2 ts e ltac:(lia)) as [t Et]. exists t.1.1. split; [apply elem_idx_out; eauto|].
      rewrite PN. apply elem_of_seq. pose proof (lay_wf _ _ _ HL) as Hw. unfold wf in Hw. rewrite list.Forall_forall in Hw.
      specialize (Hw t (elem_of_list_lookup_2 _ _ _ Et)). lia. }
  rewrite each_all_nodes by (rewrite fl_length, Lg; done). cbn [mbind option_bind].
  rewrite each_all_edges by (cbn [fl g_edges]; rewrite Le; done). cbn [mbind option_bind g_nodes g_edges].
  exists N, E. split; [|done]. do 3 f_equal. unfold g, mk, fl. cbn [g_nodes g_edges]. f_equal.
  - apply list_eq. intros i. rewrite list_lookup_fmap, !list_lookup_imap. destruct (bs !! i); done.
  - rewrite <- list_fmap_compose. apply list_fmap_ext. intros i x _. done.
Qed.

Section init.
Context (O : num F).
Definition ready (tau : F) (bs : list (body F)) (ts : list link) : graph F :=
  Graph (set_pher tau <$> g_nodes (mk O bs ts)) (set_epher tau <$> g_edges (mk O bs ts)).
Lemma plan_spec k : setup_ok O k -> length (plan k) = length (k_sizes k) - 1 /\ Forall lok (plan k) /\
  forall i p, plan k !! i = Some p -> k_sizes k !! i = Some p.1.1.1 /\ k_sizes k !! (i + 1) = Some p.1.1.2 /\ k_widths k !! i = Some p.1.2 /\ k_acts k !! i = Some p.2.
Proof.
  intros H.
  assert (HP : forall i p, plan k !! i = Some p -> k_sizes k !! i = Some p.1.1.1 /\ k_sizes k !! (i + 1) = Some p.1.1.2 /\ k_widths k !! i = Some p.1.2 /\ k_acts k !! i = Some p.2).
  { intros i p Hp. unfold plan in Hp. rewrite list_fmap_id in Hp. apply lookup_zip_with_Some in Hp as (x & a & -> & Hx & Ha).
    apply lookup_zip_with_Some in Hx as (y & w & -> & Hy & Hw). apply lookup_zip_with_Some in Hy as (s & t & -> & Hs & Ht). cbn.
    rewrite Hs, Hw, Ha. repeat split; try done. rewrite <- Ht, lookup_tail. f_equal. lia. }
  split; [|split; [|done]].
  - unfold plan. rewrite fmap_length, !zip_with_length, (ok_widths O k H). pose proof (ok_layers O k H). pose proof (ok_acts O k H). destruct (k_sizes k) as [|? l]; cbn [tail length] in *; lia.
  - apply list.Forall_forall. intros p Hp. apply elem_of_list_lookup in Hp as [i Hi]. apply HP in Hi as (A & B & C & _).
    pose proof (ok_sizes O k H) as H1. pose proof (ok_width O k H) as H2. rewrite list.Forall_forall in H1, H2. split.
    + apply H2. by eapply elem_of_list_lookup_2.
    + pose proof (H1 _ (elem_of_list_lookup_2 _ _ _ A)). pose proof (H1 _ (elem_of_list_lookup_2 _ _ _ B)). lia.
Qed.
Lemma init_aco_ok junk rnd k : setup_ok O k ->
  let ps := plan k in let bs := Empty :: bodies_all O rnd 1 ps in
  exists ts nodes edges, init_aco O junk rnd k = Some (Aco (ready (k_tau k) bs ts) nodes edges (ids_all 1 ps) (k_sizes k) (k_widths k) (k_depths k) (k_p k) (k_pdec k)
      (k_tau k) (n_z O 0) (n_z O (Z.of_nat (length ts / length bs))) 0 (k_every k) [] (n_z O 0) (replicate (k_ants k) []) (replicate (k_ants k) (n_z O 0))) /\
    nodes ≡ₚ seq 0 (length bs) /\ edges ≡ₚ seq 0 (length ts) /\ lay bs ts ((0, [0]) :: rows_all 1 ps).
Proof.
  intros H. intros ps bs. destruct (plan_spec k H) as (Lp & Lk & Lsp). destruct (layers_loop O junk rnd k ps Lk Lsp) as (ts & Eloop & HL).
  destruct (collect_ok O bs ts _ 0 HL eq_refl) as (nodes & edges & Ec & PN & PE & _).
  exists ts, nodes, edges. split; [|done]. unfold init_aco. rewrite decide_False by (pose proof (ok_layers O k H); lia). 
  pose proof (ok_widths O k H) as Hw. pose proof (ok_ndepths O k H) as Hd. rewrite decide_False by lia. rewrite decide_False by lia.
  rewrite !take_ge by lia. rewrite decide_True by apply (ok_depths O k H).
  rewrite (ok_p O k H). fold ps in Lp. rewrite <- Lp. cbn [init_node g_nodes g_edges app length]. unfold init_node in *. cbn [g_nodes g_edges app length].
  match type of Eloop with for_loop _ _ _ ?s = _ => change s with s end.
  etrans; [apply (f_equal (fun o => mbind (M := option) _ o)); exact Eloop|]. cbn [mbind option_bind].
  fold bs. rewrite Ec. cbn [mbind option_bind].
  assert (Lg : length (g_nodes (mk O bs ts)) = length bs) by apply mk_length.
  assert (Le : length (g_edges (mk O bs ts)) = length ts) by apply fmap_length.
  rewrite each_all_edges by (rewrite Le; done). cbn [mbind option_bind].
  rewrite each_all_nodes by (cbn [g_nodes]; rewrite Lg; done). cbn [mbind option_bind g_nodes g_edges].
  rewrite (Permutation_length PN), (Permutation_length PE), !seq_length. done.
Qed.
End init.
End each.
