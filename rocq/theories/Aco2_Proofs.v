(** Reading the graph by rows; attach_layer adds the rows of a layer behind the others. *)
From Verif Require Import BaseLemmas Aco_Model Aco_Proofs.
Open Scope nat_scope.

Definition from_ (u : nat) (ts : list link) : list link := filter (fun t : link => t.1.1 = u) ts.
Lemma idx_out_spec ts u : Forall2 (fun e t => ts !! e = Some t) (idx_out ts u) (from_ u ts).
Proof.
  induction ts as [|t ts IH] using rev_ind; [constructor|]. rewrite idx_out_snoc. unfold from_. rewrite list.filter_app. apply Forall2_app.
  - eapply Forall2_impl; [exact IH|]. intros e t' E. cbn. by apply lookup_app_l_Some.
  - rewrite filter_cons, filter_nil. destruct (decide (t.1.1 = u)); [|constructor]. constructor; [|constructor]. by apply list_lookup_middle.
Qed.
Lemma elem_idx_out ts u e : e ∈ idx_out ts u <-> exists t, ts !! e = Some t /\ t.1.1 = u.
Proof.
  unfold idx_out. rewrite elem_of_list_fmap. split.
  - intros ([i t] & -> & H). apply elem_of_list_filter in H as [H1 H2]. cbn in H1. exists t. split; [|done]. cbn.
    apply elem_of_list_lookup in H2 as [j H2]. rewrite list_lookup_imap in H2. destruct (ts !! j) eqn:E; [|done]. cbn in H2. injection H2 as <- <-. done.
  - intros (t & E & Hu). exists (e, t). split; [done|]. apply elem_of_list_filter. split; [done|]. apply elem_of_list_lookup. exists e.
    by rewrite list_lookup_imap, E.
Qed.
Lemma elem_idx_in ts u e : e ∈ idx_in ts u <-> exists t, ts !! e = Some t /\ t.1.2 = u.
Proof.
  unfold idx_in. rewrite elem_of_list_fmap. split.
  - intros ([i t] & -> & H). apply elem_of_list_filter in H as [H1 H2]. cbn in H1. exists t. split; [|done]. cbn.
    apply elem_of_list_lookup in H2 as [j H2]. rewrite list_lookup_imap in H2. destruct (ts !! j) eqn:E; [|done]. cbn in H2. injection H2 as <- <-. done.
  - intros (t & E & Hu). exists (e, t). split; [done|]. apply elem_of_list_filter. split; [done|]. apply elem_of_list_lookup. exists e.
    by rewrite list_lookup_imap, E.
Qed.
Lemma idx_out_NoDup ts u : NoDup (idx_out ts u).
Proof.
  induction ts as [|t ts IH] using rev_ind; [constructor|]. rewrite idx_out_snoc. destruct (decide (t.1.1 = u)); [|by rewrite app_nil_r].
  apply NoDup_app. split; [done|]. split; [|apply NoDup_singleton]. intros e0 He He'. apply elem_of_list_singleton in He' as ->.
  apply elem_idx_out in He as (t' & E & _). apply lookup_lt_Some in E. lia.
Qed.

Section read.
Context {F : Type} (O : num F).
(** what the links say of a graph *)
Definition triple (e : edge F) : link := (g_in e, g_out e, g_op e).
Definition adj (g : graph F) (ts : list link) : Prop :=
  triple <$> g_edges g = ts /\ forall u n, g_nodes g !! u = Some n -> o_outputs n = idx_out ts u /\ o_inputs n = idx_in ts u.
Lemma adj_mk bs ts : adj (mk O bs ts) ts.
Proof.
  split.
  - unfold mk. cbn. rewrite <- list_fmap_compose. transitivity (id <$> ts); [|by rewrite list_fmap_id]. apply list_fmap_ext. intros i [[a b] c] _. done.
  - intros u n. rewrite mk_nodes_lookup. destruct (bs !! u); [|done]. cbn. intros E. injection E as <-. done.
Qed.
Lemma outputs_nil g ts u n : adj g ts -> g_nodes g !! u = Some n -> (o_outputs n = [] <-> from_ u ts = []).
Proof.
  intros [_ H] E. destruct (H u n E) as [-> _]. pose proof (Forall2_length _ _ _ (idx_out_spec ts u)) as L.
  split; intros E'; rewrite E' in L; cbn in L; [by destruct (from_ u ts)|by destruct (idx_out ts u)].
Qed.
Lemma outputs_length g ts u n : adj g ts -> g_nodes g !! u = Some n -> length (o_outputs n) = length (from_ u ts).
Proof. intros [_ H] E. destruct (H u n E) as [-> _]. apply (Forall2_length _ _ _ (idx_out_spec ts u)). Qed.
Lemma output_lookup g ts u n i : adj g ts -> g_nodes g !! u = Some n ->
  match from_ u ts !! i with
  | Some t => exists e y, o_outputs n !! i = Some e /\ g_edges g !! e = Some y /\ triple y = t
  | None => o_outputs n !! i = None
  end.
Proof.
  intros [Ht H] E. destruct (H u n E) as [-> _]. pose proof (idx_out_spec ts u) as F2. destruct (from_ u ts !! i) as [t|] eqn:Et.
  - destruct (Forall2_lookup_r _ _ _ _ _ F2 Et) as (e & Ee & Et'). rewrite <- Ht, list_lookup_fmap in Et'. destruct (g_edges g !! e) as [y|] eqn:Ey; [|done].
    cbn in Et'. injection Et' as Et'. eauto.
  - apply lookup_ge_None. apply lookup_ge_None in Et. rewrite (Forall2_length _ _ _ F2). done.
Qed.
Lemma child_adj g ts u i : adj g ts -> u < length (g_nodes g) -> child g u i = (fun t : link => t.1.2) <$> from_ u ts !! i.
Proof.
  intros H Hu. destruct (lookup_lt_is_Some_2 _ _ Hu) as [n E]. unfold child, rd. rewrite E. cbn [mbind option_bind].
  pose proof (output_lookup g ts u n i H E) as Ho. destruct (from_ u ts !! i) as [t|]; [|by rewrite Ho].
  destruct Ho as (e & y & -> & E2 & <-). cbn [mbind option_bind]. rewrite E2. done.
Qed.
End read.

(** the links that leave a node, by rows *)
Lemma from_app u ts ts' : from_ u (ts ++ ts') = from_ u ts ++ from_ u ts'.
Proof. apply list.filter_app. Qed.
Lemma from_fmap_in u B op : from_ u ((fun b => (u, b, op)) <$> B) = (fun b => (u, b, op)) <$> B.
Proof. unfold from_. induction B as [|b B IH]; [done|]. rewrite fmap_cons, filter_cons_True by done. by rewrite IH. Qed.
Lemma from_fmap_out u a B op : u <> a -> from_ u ((fun b => (a, b, op)) <$> B) = [].
Proof. intros H. unfold from_. induction B as [|b B IH]; [done|]. rewrite fmap_cons, filter_cons_False by (cbn; congruence). done. Qed.
Lemma from_complete_out A B op u : u ∉ A -> from_ u (complete A B op) = [].
Proof.
  intros Hn. unfold from_. destruct (filter (fun t : link => t.1.1 = u) (complete A B op)) as [|t l] eqn:E; [done|]. exfalso.
  assert (t ∈ filter (fun t : link => t.1.1 = u) (complete A B op)) as Ht by (rewrite E; left). apply elem_of_list_filter in Ht as [H1 H2].
  unfold complete in H2. apply elem_of_list_bind in H2 as (x & H2 & Hx). apply elem_of_list_fmap in H2 as (y & -> & _). cbn in H1. by subst x.
Qed.
Lemma from_complete_in A B op u : NoDup A -> u ∈ A -> from_ u (complete A B op) = (fun b => (u, b, op)) <$> B.
Proof.
  intros HN Hu. induction A as [|a A IH]; [by apply not_elem_of_nil in Hu|].
  change (complete (a :: A) B op) with (((fun b => (a, b, op)) <$> B) ++ complete A B op). rewrite from_app.
  apply list.NoDup_cons in HN as [Ha HN]. destruct (decide (u = a)) as [->|Hne].
  - rewrite from_complete_out, app_nil_r by done. apply from_fmap_in.
  - apply elem_of_cons in Hu as [->|Hu]; [done|]. rewrite IH, from_fmap_out by done. done.
Qed.
Lemma join_app {A} (l l' : list (list A)) : mjoin (l ++ l') = mjoin l ++ mjoin l'.
Proof. induction l as [|x l IH]; [done|]. cbn. rewrite <- app_assoc. f_equal. exact IH. Qed.
Notation rows_nodes rows := (mjoin (rows.*2)).
Lemma from_links_out rows u : u ∉ rows_nodes rows -> from_ u (links rows) = [].
Proof.
  induction rows as [|r rows IH]; [done|]. intros Hn. rewrite fmap_cons in Hn. cbn in Hn. apply not_elem_of_app in Hn as [Hn1 Hn2].
  destruct rows as [|r' rows]; [done|]. change (links (r :: r' :: rows)) with (complete r.2 r'.2 r'.1 ++ links (r' :: rows)).
  rewrite from_app, from_complete_out, IH by done. done.
Qed.
Definition next_links (u : nat) (r : option (nat * list nat)) : list link := match r with Some r => (fun b => (u, b, r.1)) <$> r.2 | None => [] end.
Lemma from_links rows p r u : NoDup (rows_nodes rows) -> rows !! p = Some r -> u ∈ r.2 -> from_ u (links rows) = next_links u (rows !! S p).
Proof.
  revert p. induction rows as [|r0 rows IH]; intros p HN Hp Hu; [done|]. rewrite fmap_cons in HN. cbn in HN. apply NoDup_app in HN as (N1 & N2 & N3).
  destruct p as [|p].
  - cbn in Hp. injection Hp as ->. cbn [lookup list_lookup]. destruct rows as [|r' rows]; [done|].
    change (links (r :: r' :: rows)) with (complete r.2 r'.2 r'.1 ++ links (r' :: rows)). rewrite from_app, from_complete_in by done. rewrite from_links_out, app_nil_r by (by apply N2). done.
  - cbn [lookup list_lookup] in Hp |- *. destruct rows as [|r' rows]; [done|].
    assert (Hin : u ∈ rows_nodes (r' :: rows)).
    { apply elem_of_list_join. exists r.2. split; [done|]. apply elem_of_list_fmap. exists r. split; [done|]. by eapply elem_of_list_lookup_2. }
    change (links (r0 :: r' :: rows)) with (complete r0.2 r'.2 r'.1 ++ links (r' :: rows)). rewrite from_app.
    rewrite from_complete_out by (intros H0; exact (N2 u H0 Hin)). apply (IH p N3 Hp Hu).
Qed.
Lemma from_perm u ts ts' : ts ≡ₚ ts' -> from_ u ts ≡ₚ from_ u ts'.
Proof. intros E. unfold from_. by rewrite E. Qed.

Section attach.
Context {F : Type} (O : num F).
(** the rows describe the graph g *)
Definition by_rows (g : graph F) (ts : list link) (rows : list (nat * list nat)) : Prop :=
  adj g ts /\ forall p r u, rows !! p = Some r -> u ∈ r.2 -> from_ u ts ≡ₚ next_links u (rows !! S p) /\ u < length (g_nodes g).
Lemma child_rows g ts rows p r r' u i : by_rows g ts rows -> rows !! p = Some r -> u ∈ r.2 -> rows !! S p = Some r' -> i < length r'.2 ->
  exists c, child g u i = Some c /\ c ∈ r'.2.
Proof.
  intros [H1 H2] Hp Hu Hp' Hi. destruct (H2 p r u Hp Hu) as [E Hl]. rewrite Hp' in E. cbn in E. rewrite (child_adj g ts u i H1 Hl).
  assert (Hi' : i < length (from_ u ts)) by (rewrite E, fmap_length; done). destruct (lookup_lt_is_Some_2 _ _ Hi') as [t Et]. rewrite Et. cbn.
  exists t.1.2. split; [done|]. apply elem_of_list_lookup_2 in Et. rewrite E in Et. apply elem_of_list_fmap in Et as (b & -> & Hb). done.
Qed.
Lemma outputs_rows g ts rows p r u n : by_rows g ts rows -> rows !! p = Some r -> u ∈ r.2 -> g_nodes g !! u = Some n ->
  length (o_outputs n) = match rows !! S p with Some r' => length r'.2 | None => 0 end.
Proof.
  intros [H1 H2] Hp Hu En. destruct (H2 p r u Hp Hu) as [E Hl]. rewrite (outputs_length g ts u n H1 En), E. destruct (rows !! S p); [apply fmap_length|done].
Qed.
Lemma node_rows g ts rows p r u : by_rows g ts rows -> rows !! p = Some r -> u ∈ r.2 -> exists n, g_nodes g !! u = Some n.
Proof. intros [H1 H2] Hp Hu. destruct (H2 p r u Hp Hu) as [_ Hl]. by apply lookup_lt_is_Some_2. Qed.

Lemma last_fcl_ok junk g ts l o f ra nf input output : let rows := l ++ [(o, [f]); ra] in
  by_rows g ts rows -> Forall (fun r => r.2 <> []) rows -> g_nodes g !! f = Some nf -> o_body nf = Fcl input output ->
  forall fuel p r u, rows !! p = Some r -> u ∈ r.2 -> p <= length l -> length l - p < fuel -> last_fcl junk fuel g u = Some f.
Proof.
  intros rows H Hne Enf Hf. induction fuel as [|fuel IH]; intros p r u Hp Hu Hpl Hfuel; [lia|]. cbn [last_fcl].
  destruct (node_rows _ _ _ _ _ _ H Hp Hu) as [n En]. unfold rd. rewrite En. cbn [mbind option_bind].
  assert (Hnext : exists r', rows !! S p = Some r') by (apply lookup_lt_is_Some_2; unfold rows; rewrite app_length; cbn; lia). destruct Hnext as [r' Hp'].
  assert (Hr' : 0 < length r'.2).
  { destruct r'.2 eqn:E; [|cbn; lia]. rewrite list.Forall_forall in Hne. exfalso. apply (Hne r'); [by eapply elem_of_list_lookup_2|done]. }
  destruct (child_rows _ _ _ _ _ _ _ 0 H Hp Hu Hp' Hr') as (c & Ec & Hc). rewrite Ec. cbn [mbind option_bind].
  destruct (node_rows _ _ _ _ _ _ H Hp' Hc) as [nc Enc]. rewrite Enc. cbn [mbind option_bind].
  pose proof (outputs_rows _ _ _ _ _ _ _ H Hp' Hc Enc) as Hlen.
  destruct (decide (p = length l)) as [->|Hne'].
  - assert (r = (o, [f])) as -> by (unfold rows in Hp; rewrite list_lookup_middle in Hp by done; by injection Hp as <-).
    cbn in Hu. apply elem_of_list_singleton in Hu as ->. rewrite En in Enf. injection Enf as ->. rewrite Hf. cbn [is_fcl mbind option_bind].
    rewrite (lookup_ge_None_2 rows) in Hlen by (unfold rows; rewrite app_length; cbn; lia). rewrite bool_decide_eq_true_2 by (by destruct (o_outputs nc)). done.
  - assert (Hnext2 : exists r2, rows !! S (S p) = Some r2) by (apply lookup_lt_is_Some_2; unfold rows; rewrite app_length; cbn; lia). destruct Hnext2 as [r2 Hp2].
    rewrite Hp2 in Hlen.
    assert (0 < length r2.2).
    { destruct r2.2 eqn:E; [|cbn; lia]. rewrite list.Forall_forall in Hne. exfalso. apply (Hne r2); [by eapply elem_of_list_lookup_2|done]. }
    rewrite bool_decide_eq_false_2 by (intros E; rewrite E in Hlen; cbn in Hlen; lia).
    destruct (is_fcl junk (o_body n)); cbn [mbind option_bind]; apply (IH (S p) r' c); done || lia.
Qed.

(** the state of the construction *)
Record lay (bs : list (body F)) (ts : list link) (rows : list (nat * list nat)) : Prop := Lay {
  lay_wf : wf (length bs) ts; lay_links : ts ≡ₚ links rows; lay_nodes : rows_nodes rows ≡ₚ seq 0 (length bs); lay_ne : Forall (fun r => r.2 <> []) rows }.
Lemma lay_NoDup bs ts rows : lay bs ts rows -> NoDup (rows_nodes rows).
Proof. intros H. rewrite (lay_nodes _ _ _ H). apply NoDup_seq. Qed.
Lemma elem_rows (rows : list (nat * list nat)) p r u : rows !! p = Some r -> u ∈ r.2 -> u ∈ rows_nodes rows.
Proof.
  intros Hp Hu. apply elem_of_list_join. exists r.2. split; [done|]. apply elem_of_list_fmap. exists r. split; [done|]. by eapply elem_of_list_lookup_2.
Qed.
Lemma rows_elem (rows : list (nat * list nat)) u : u ∈ rows_nodes rows -> exists p r, rows !! p = Some r /\ u ∈ r.2.
Proof.
  intros H. apply elem_of_list_join in H as (l & Hu & Hl). apply elem_of_list_fmap in Hl as (r & -> & Hr). apply elem_of_list_lookup in Hr as [p Hp]. eauto.
Qed.
Lemma lay_by_rows bs ts rows bs' ts' : lay bs ts rows -> length bs <= length bs' -> (forall u, u < length bs -> from_ u ts' = []) ->
  by_rows (mk O bs' (ts ++ ts')) (ts ++ ts') rows.
Proof.
  intros H Hl Hts'. split; [apply adj_mk|]. intros p r u Hp Hu. rewrite mk_length.
  assert (Hu' : u < length bs).
  { pose proof (elem_rows _ _ _ _ Hp Hu) as E. rewrite (lay_nodes _ _ _ H) in E. apply elem_of_seq in E. lia. }
  split; [|lia]. rewrite from_app, Hts', app_nil_r by done. rewrite (from_perm u _ _ (lay_links _ _ _ H)). rewrite (from_links rows p r u); try done.
  by eapply lay_NoDup.
Qed.
Lemma rows_count bs ts rows : lay bs ts rows -> length rows <= length bs.
Proof.
  intros H. transitivity (length (rows_nodes rows)); [|by rewrite (lay_nodes _ _ _ H), seq_length]. pose proof (lay_ne _ _ _ H) as Hne. clear H.
  induction rows as [|r rows IH]; [done|]. apply list.Forall_cons in Hne as [H1 H2]. rewrite fmap_cons.
  change (mjoin (r.2 :: rows.*2)) with (r.2 ++ rows_nodes rows). rewrite app_length. specialize (IH H2). destruct r.2; [done|]. cbn [length]. lia.
Qed.
Lemma complete_app A A' B op : complete (A ++ A') B op = complete A B op ++ complete A' B op.
Proof. apply bind_app. Qed.
Lemma complete_perm A A' B B' op : A ≡ₚ A' -> B ≡ₚ B' -> complete A B op ≡ₚ complete A' B' op.
Proof.
  intros HA HB. transitivity (complete A' B op); unfold complete.
  - by rewrite HA.
  - clear HA A. induction A' as [|a A IH]; [done|]. rewrite !bind_cons, IH, HB. done.
Qed.

Lemma attach_to_root_ok junk bs ts rows bs' new w ns row0 : lay bs ts rows -> length bs <= length bs' -> wf (length bs') new ->
  (forall u, u < length bs -> from_ u new = []) -> w <= length ns -> take w ns = row0 -> Forall (fun b => b < length bs') row0 ->
  rows !! 0 = Some (0, [0]) ->
  (rows = [(0, [0])] \/ exists l o f ra nf input output, rows = l ++ [(o, [f]); ra] /\ bs' !! f = Some nf /\ nf = Fcl input output) ->
  exists A, A ≡ₚ (default (0, []) (list.last rows)).2 /\
    attach_to_root O junk 0 ns w (mk O bs' (ts ++ new)) = Some (mk O bs' ((ts ++ new) ++ complete A row0 opCopy)).
Proof.
  intros H Hl Wn Hnew Hw E0 Hrow0 Hroot Hshape. unfold attach_to_root.
  pose proof (lay_by_rows bs ts rows bs' new H Hl Hnew) as Hby.
  destruct (node_rows _ _ _ 0 (0, [0]) 0 Hby Hroot ltac:(left)) as [n0 En0]. unfold rd. rewrite En0. cbn [mbind option_bind].
  assert (W : wf (length bs') (ts ++ new)) by (apply wf_app; split; [eapply wf_mono; [exact (lay_wf _ _ _ H)|done]|done]).
  assert (H0 : 0 < length bs').
  { destruct Hby as [_ Hby]. destruct (Hby 0 (0, [0]) 0 Hroot ltac:(left)) as [_ Hby']. rewrite mk_length in Hby'. done. }
  pose proof (outputs_rows _ _ _ _ _ _ _ Hby Hroot ltac:(left) En0) as Hlen. destruct Hshape as [->|(l & o & f & ra & nf & input & output & -> & Ef & ->)].
  - rewrite decide_True by (cbn in Hlen; by destruct (o_outputs n0)). exists [0]. split; [done|].
    rewrite add_outputs_mk; [|done|done|done|by rewrite E0]. rewrite E0. done.
  - assert (Hne := lay_ne _ _ _ H).
    assert (Hra : exists r1, (l ++ [(o, [f]); ra]) !! 1 = Some r1) by (apply lookup_lt_is_Some_2; rewrite app_length; cbn; lia). destruct Hra as [r1 Hr1].
    rewrite Hr1 in Hlen.
    rewrite decide_False.
    2:{ intros E. rewrite E in Hlen. cbn in Hlen. rewrite list.Forall_forall in Hne. apply (Hne r1); [by eapply elem_of_list_lookup_2|by destruct r1.2]. }
    assert (Enf : g_nodes (mk O bs' (ts ++ new)) !! f = Some (mk_node O (ts ++ new) f (Fcl input output))) by (rewrite mk_nodes_lookup, Ef; done).
    rewrite (last_fcl_ok junk _ _ l o f ra _ input output Hby Hne Enf eq_refl (S (length (g_nodes (mk O bs' (ts ++ new))))) 0 (0, [0]) 0).
    2:{ done. } 2:{ left. } 2:{ lia. }
    2:{ rewrite mk_length. pose proof (rows_count _ _ _ H) as Hc. rewrite app_length in Hc. cbn in Hc. lia. }
    cbn [mbind option_bind]. rewrite Enf. cbn [mbind option_bind].
    assert (Hf : (l ++ [(o, [f]); ra]) !! length l = Some (o, [f])) by by apply list_lookup_middle.
    assert (Hra : (l ++ [(o, [f]); ra]) !! S (length l) = Some ra) by (rewrite lookup_app_r by lia; replace (S (length l) - length l) with 1 by lia; done).
    destruct Hby as [Hadj Hby]. destruct (Hby _ _ f Hf ltac:(left)) as [Efrom _]. rewrite Hra in Efrom. cbn in Efrom.
    set (A := (fun t : link => t.1.2) <$> from_ f (ts ++ new)).
    assert (EA : A ≡ₚ ra.2).
    { unfold A. rewrite Efrom. rewrite <- list_fmap_compose. rewrite (list_fmap_ext _ id); [by rewrite list_fmap_id|]. done. }
    exists A. split.
    { change [(o, [f]); ra] with ([(o, [f])] ++ [ra]). rewrite app_assoc, last_snoc. done. }
    rewrite (outputs_length _ _ _ _ Hadj Enf).
    assert (HfA : f ∉ A).
    { intros Hin. rewrite EA in Hin. pose proof (lay_NoDup _ _ _ H) as HN. rewrite fmap_app, join_app in HN. apply NoDup_app in HN as (_ & _ & HN).
      cbn in HN. apply list.NoDup_cons in HN as [HN _]. apply HN. rewrite app_nil_r. done. }
    assert (HAlt : Forall (fun b => b < length bs') A).
    { rewrite EA. apply list.Forall_forall. intros b Hb. destruct (Hby _ _ b Hra Hb) as [_ Hlt]. rewrite mk_length in Hlt. done. }
    destruct (for_loop_inv (fun i g => g = mk O bs' ((ts ++ new) ++ complete (take i A) row0 opCopy))
      (fun i g => c ← child g f i; add_outputs O c ns w opCopy g) (length (from_ f (ts ++ new))) 0 (mk O bs' (ts ++ new))) as (g & Eg & Hg).
    + cbn. rewrite app_nil_r. done.
    + intros i g Hi ->.
      assert (Hi' : i < length A) by (unfold A; rewrite fmap_length; lia). destruct (lookup_lt_is_Some_2 _ _ Hi') as [c Ec].
      assert (Wi : wf (length bs') ((ts ++ new) ++ complete (take i A) row0 opCopy)).
      { apply wf_app. split; [done|]. apply wf_complete; [|done]. by apply Forall_take. }
      rewrite (child_adj _ _ _ _ (adj_mk O bs' _)) by (rewrite mk_length; by eapply lookup_lt_Some).
      rewrite from_app, from_complete_out, app_nil_r by (intros Hin; apply HfA; rewrite <- (take_drop i A); apply elem_of_app; by left).
      unfold A in Ec. rewrite list_lookup_fmap in Ec. rewrite Ec. cbn [mbind option_bind].
      assert (Hc : c < length bs') by (rewrite list.Forall_forall in HAlt; apply HAlt; unfold A; apply elem_of_list_lookup; exists i; by rewrite list_lookup_fmap).
      rewrite add_outputs_mk; [|done|done|done|by rewrite E0]. eexists. split; [done|]. rewrite E0.
      rewrite (take_S_r A i c) by (unfold A; by rewrite list_lookup_fmap). rewrite complete_app. by rewrite !app_assoc.
    + rewrite Eg, Hg. cbn [plus]. rewrite take_ge by (unfold A; rewrite fmap_length; lia). done.
Qed.
End attach.
