(** Walks that always succeed, the size of the graph, and the chances of the roulette. *)
From Coq Require Import Reals Lra.
From Verif Require Import BaseLemmas Sort_Proofs Mcts4_Proofs Aco_Spec Aco_Proofs Aco2_Proofs Aco3_Proofs Aco4_Proofs Aco5_Proofs Aco6_Proofs Aco7_Proofs.
Open Scope nat_scope.

Section walks.
Context {F : Type} (O : num F).
Implicit Types g : graph F.

(** the largest, the first of them *)
Lemma choose_best_fold (l : list (nat * F)) st : let r := foldl (fun st ix => if n_lt O st.2 ix.2 then ix else st) st l in r = st \/ r ∈ l.
Proof.
  revert st. induction l as [|x l IH]; intros st; [by left|]. cbn. destruct (IH (if n_lt O st.2 x.2 then x else st)) as [E|E]; [|right; by right].
  rewrite E. destruct (n_lt O st.2 x.2); [right; left|by left].
Qed.
Lemma choose_best_lt phs : phs <> [] -> exists i, choose_best O phs = Some i /\ i < length phs.
Proof.
  destruct phs as [|x phs]; [done|]. intros _. set (r := foldl (fun st ix => if n_lt O st.2 ix.2 then ix else st) (0, x) (imap pair (x :: phs))). exists r.1. split; [done|].
  assert (HH : r = (0, x) \/ r ∈ imap pair (x :: phs)) by apply choose_best_fold. clearbody r. destruct HH as [->|E].
  - cbn. lia.
  - apply elem_of_list_lookup in E as [i Ei]. rewrite list_lookup_imap in Ei. destruct ((x :: phs) !! i) as [y|] eqn:Ey; [|done]. cbn in Ei. injection Ei as Ei.
    rewrite <- Ei. cbn [fst]. by eapply lookup_lt_Some.
Qed.
Lemma mapM_length' {A B} (f : A -> option B) l r : mapM f l = Some r -> length r = length l.
Proof. intros E. apply mapM_Some in E. symmetry. by eapply Forall2_length. Qed.
Lemma mapM_is_Some {A B} (f : A -> option B) l : (forall x, x ∈ l -> is_Some (f x)) -> exists r, mapM f l = Some r.
Proof. intros H. apply mapM_is_Some. by apply list.Forall_forall. Qed.
Lemma edge_phers_ok g ts u n : adj g ts -> g_nodes g !! u = Some n -> exists phs, edge_phers g n = Some phs /\ length phs = length (o_outputs n).
Proof.
  intros Ha En. destruct (mapM_is_Some (fun e => y ← rd (g_edges g) e; Some (g_pher y)) (o_outputs n)) as [r Er]; [|exists r; split; [done|by eapply mapM_length']].
  intros e He. apply elem_of_list_lookup in He as [i Ei]. pose proof (output_lookup g ts u n i Ha En) as Ho. destruct (from_ u ts !! i); [|congruence].
  destruct Ho as (e' & y & Ee' & Ey & _). rewrite Ei in Ee'. injection Ee' as ->. unfold rd. rewrite Ey. by eexists.
Qed.
Lemma node_phers_ok g ts u n : adj g ts -> wf (length (g_nodes g)) ts -> g_nodes g !! u = Some n -> exists phs, node_phers g n = Some phs /\ length phs = length (o_outputs n).
Proof.
  intros Ha Hw En. destruct (mapM_is_Some (fun e => y ← rd (g_edges g) e; x ← rd (g_nodes g) (g_out y); Some (o_pher x)) (o_outputs n)) as [r Er]; [|exists r; split; [done|by eapply mapM_length']].
  intros e He. apply elem_of_list_lookup in He as [i Ei]. pose proof (output_lookup g ts u n i Ha En) as Ho. destruct (from_ u ts !! i) as [t|] eqn:Et; [|congruence].
  destruct Ho as (e' & y & Ee' & Ey & Ety). rewrite Ei in Ee'. injection Ee' as ->. unfold rd. rewrite Ey. cbn [mbind option_bind].
  assert (Ht : t ∈ ts) by (apply elem_of_list_lookup_2, elem_of_list_filter in Et; apply Et). unfold wf in Hw. rewrite list.Forall_forall in Hw. specialize (Hw t Ht).
  rewrite <- Ety in Hw. cbn in Hw. destruct (lookup_lt_is_Some_2 (g_nodes g) (g_out y) ltac:(lia)) as [m ->]. by eexists.
Qed.
Definition certain g (ru : rule F) : Prop := forall x n, g_nodes g !! x = Some n -> o_outputs n <> [] -> exists i, next_index O g x ru = Some (Some i) /\ i < length (o_outputs n).
Lemma best_certain g ts : adj g ts -> wf (length (g_nodes g)) ts -> certain g BestNode /\ certain g BestEdge.
Proof.
  intros Ha Hw. split; intros x n En Ho; unfold next_index, rd; rewrite En; cbn [mbind option_bind]; rewrite decide_False by done.
  - destruct (node_phers_ok g ts x n Ha Hw En) as (phs & -> & L). cbn [mbind option_bind]. destruct (choose_best_lt phs) as (i & -> & Hi); [by destruct phs, (o_outputs n)|].
    exists i. split; [done|lia].
  - destruct (edge_phers_ok g ts x n Ha En) as (phs & -> & L). cbn [mbind option_bind]. destruct (choose_best_lt phs) as (i & -> & Hi); [by destruct phs, (o_outputs n)|].
    exists i. split; [done|lia].
Qed.
Lemma walk_certain k ts s rules : inv O k ts s -> (forall m, certain (s_graph s) (rules m)) -> forall fuel size p r x, rows_ k !! p = Some r -> x ∈ r.2 ->
  length (rows_ k) - p <= fuel -> exists l, walk O fuel (s_graph s) rules size x = Some l.
Proof.
  intros H Hc. pose proof (inv_by_rows _ _ _ _ H) as Hby. induction fuel as [|fuel IH]; intros size p r x Hp Hx Hf; [apply lookup_lt_Some in Hp; lia|]. cbn [walk].
  destruct (node_rows _ _ _ _ _ _ Hby Hp Hx) as [n En]. destruct (decide (o_outputs n = [])) as [Eo|Eo].
  - unfold next_index, rd. rewrite En. cbn [mbind option_bind]. rewrite decide_True by done. by eexists.
  - destruct (Hc size x n En Eo) as (i & -> & Hi). cbn [mbind option_bind]. rewrite (outputs_rows _ _ _ _ _ _ _ Hby Hp Hx En) in Hi.
    destruct (rows_ k !! S p) as [r'|] eqn:Hp'; [|lia]. destruct (child_rows _ _ _ _ _ _ _ _ Hby Hp Hx Hp' Hi) as (c & -> & Hcr). cbn [mbind option_bind].
    destruct (IH (S size) (S p) r' c Hp' Hcr ltac:(lia)) as [l ->]. by eexists.
Qed.
Lemma walk_certain0 k ts s rules : inv O k ts s -> (forall m, certain (s_graph s) (rules m)) ->
  exists l, walk O (S (length (g_nodes (s_graph s)))) (s_graph s) rules 0 0 = Some l /\ full ts (rows_ k) l.
Proof.
  intros H Hc. destruct (walk_certain k ts s rules H Hc (S (length (g_nodes (s_graph s)))) 0 0 (0, [0]) 0 eq_refl ltac:(left)) as [l E].
  { pose proof (rows_count _ _ _ (i_lay _ _ _ _ H)). rewrite (inv_len _ _ _ _ H). lia. }
  exists l. split; [done|]. destruct (walk_full O k ts s rules H _ _ 0 (0, [0]) 0 l eq_refl ltac:(left) E) as [L Hl]. split; [lia|done].
Qed.
Lemma inv_wf k ts s : inv O k ts s -> wf (length (g_nodes (s_graph s))) ts.
Proof. intros H. rewrite (inv_len _ _ _ _ H). apply (lay_wf _ _ _ (i_lay _ _ _ _ H)). Qed.
Lemma best_path_ok k ts s ant : inv O k ts s -> ant < k_ants k -> exists s', build_best_path O s ant = Some s'.
Proof.
  intros H Ha. destruct (walk_certain0 k ts s (fun _ => BestNode) H) as (l & E & _); [intros _; apply (best_certain _ ts); [apply (i_adj _ _ _ _ H)|by eapply inv_wf]|].
  unfold build_best_path, build_path_by. rewrite E. cbn [mbind option_bind]. rewrite wr_Some by (by rewrite (i_ants _ _ _ _ H)). by eexists.
Qed.
(** get_best_model: only the first weight of a layer is not 0 *)
Lemma best_model_zeros k ts s : setup_ok O k -> inv O k ts s -> exists m, get_best_model O s = Some m /\ length m = length (k_sizes k) - 1 /\
  forall i l, m !! i = Some l -> k_sizes k !! i = Some (l_in l) /\ k_sizes k !! (i + 1) = Some (l_out l) /\ length (l_weights l) = l_in l * l_out l /\
    forall q, 0 < q < l_in l * l_out l -> l_weights l !! q = Some (n_z O 0).
Proof.
  intros Hk H. destruct (walk_certain0 k ts s (fun _ => BestEdge) H) as (l & E & Hf); [intros _; apply (best_certain _ ts); [apply (i_adj _ _ _ _ H)|by eapply inv_wf]|].
  destruct (follow_full O k ts s l opTake Hk H Hf ltac:(by right)) as (cs & Hcs & E' & _). destruct (plan_spec O k Hk) as (Lp & _ & Hs).
  eexists. split; [unfold get_best_model; rewrite E; cbn [mbind option_bind]; rewrite E'; reflexivity|]. cbn [t_fcls]. split; [by rewrite net_length|].
  intros i L Hl. destruct (lookup_lt_is_Some_2 (plan k) i) as [p Hp]; [apply lookup_lt_Some in Hl; by rewrite net_length in Hl|].
  destruct (Forall2_lookup_l _ _ _ _ _ Hcs Hp) as (c & Hc & L1 & _). rewrite (net_lookup O _ _ _ _ _ _ _ _ Hcs Hp Hc) in Hl. injection Hl as <-.
  destruct (Hs i p Hp) as (E1 & E2 & _). cbn [layer_of l_in l_out l_weights]. repeat split; [done|done|unfold cand_ids; by rewrite !imap_length|].
  intros q Hq. rewrite list_lookup_imap. unfold cand_ids. rewrite list_lookup_imap. destruct (lookup_lt_is_Some_2 c.1 q ltac:(lia)) as [j ->]. cbn [fmap option_fmap option_map].
  unfold kept. rewrite !bool_decide_eq_false_2 by lia. done.
Qed.
End walks.

(** * The size of the graph *)
Fixpoint elen (l : list nat) : nat := match l with a :: l => match l with b :: _ => a * b + elen l | [] => 0 end | [] => 0 end.
Lemma links_elen rows : length (links rows) = elen ((fun r : nat * list nat => length r.2) <$> rows).
Proof.
  induction rows as [|r rows IH]; [done|]. destruct rows as [|r' rows]; [done|].
  change (links (r :: r' :: rows)) with (complete r.2 r'.2 r'.1 ++ links (r' :: rows)). rewrite app_length, IH. rewrite !fmap_cons. cbn [elen]. f_equal.
  unfold complete. induction r.2 as [|a l IHl]; [done|]. rewrite bind_cons, app_length, fmap_length, IHl. cbn [length]. lia.
Qed.
Lemma elen_layer b w d a rest : 0 < d -> elen (b :: replicate d w ++ 1 :: a :: rest) = b * w + w * w * (d - 1) + w + a + elen (a :: rest).
Proof.
  revert b. induction d as [|d IH]; intros b Hd; [lia|]. cbn [replicate app]. destruct d as [|d].
  - cbn [replicate app]. change (elen (b :: w :: 1 :: a :: rest)) with (b * w + (w * 1 + (1 * a + elen (a :: rest)))). lia.
  - change (elen (b :: w :: replicate (S d) w ++ 1 :: a :: rest)) with (b * w + elen (w :: replicate (S d) w ++ 1 :: a :: rest)). rewrite IH by lia.
    replace (S (S d) - 1) with (S d) by lia. replace (S d - 1) with d by lia. lia.
Qed.
Lemma prows_lengths base p : (fun r : nat * list nat => length r.2) <$> prows base p = replicate (p.1.1.1 * p.1.1.2) p.1.2 ++ [1; length (act_order p.2)].
Proof.
  unfold prows, lrows. rewrite fmap_app. f_equal; [|cbn; by rewrite fmap_length]. unfold wrows. rewrite <- list_fmap_compose.
  rewrite <- (seq_length (p.1.1.1 * p.1.1.2) 0) at 2. rewrite <- const_fmap with (f := fun _ => p.1.2) by done. apply list_fmap_ext. intros i x _. cbn. apply seq_length.
Qed.
Fixpoint ecount (b : nat) (ps : list lplan) : nat :=
  match ps with [] => 0 | p :: ps => b * p.1.2 + p.1.2 * p.1.2 * (p.1.1.1 * p.1.1.2 - 1) + p.1.2 + length (act_order p.2) + ecount (length (act_order p.2)) ps end.
Lemma elen_all ps : forall base b, Forall lok ps -> elen (b :: ((fun r : nat * list nat => length r.2) <$> rows_all base ps)) = ecount b ps.
Proof.
  induction ps as [|p ps IH]; intros base b Hok; [done|]. apply list.Forall_cons in Hok as [[_ Hd] Hok]. cbn [rows_all ecount]. rewrite fmap_app, prows_lengths.
  rewrite <- app_assoc. cbn [app]. rewrite elen_layer by done. rewrite (IH _ _ Hok). lia.
Qed.
Definition plan3 (s w : list nat) (c : list (option nat)) : list lplan := zip (zip (zip s (tail s)) w) c.
Section counts.
Context {F : Type} (O : num F).
Lemma plan_counts (k : setup F) : psum (plan k) = count_nodes (k_sizes k) (k_widths k) (k_acts k) /\ forall b, ecount b (plan k) = count_edges b (k_sizes k) (k_widths k) (k_acts k).
Proof.
  unfold plan. rewrite list_fmap_id. change (zip (zip (zip (k_sizes k) (tail (k_sizes k))) (k_widths k)) (k_acts k)) with (plan3 (k_sizes k) (k_widths k) (k_acts k)).
  generalize (k_widths k) (k_acts k). induction (k_sizes k) as [|a sizes IH]; intros ws cs; [done|].
  destruct sizes as [|b sizes]; [by destruct ws|]. destruct ws as [|w ws]; [done|]. destruct cs as [|c cs]; [done|].
  change (plan3 (a :: b :: sizes) (w :: ws) (c :: cs)) with ((a, b, w, c) :: plan3 (b :: sizes) ws cs). destruct (IH ws cs) as [A B]. split.
  - cbn [psum]. unfold lsize. cbn [fst snd]. rewrite A.
    change (count_nodes (a :: b :: sizes) (w :: ws) (c :: cs)) with (w * (a * b) + 1 + n_acts c + count_nodes (b :: sizes) ws cs). destruct c; cbn [n_acts act_order length]; lia.
  - intros n. cbn [ecount fst snd]. rewrite B.
    change (count_edges n (a :: b :: sizes) (w :: ws) (c :: cs)) with (n * w + w * w * (a * b - 1) + w + n_acts c + count_edges (n_acts c) (b :: sizes) ws cs).
    destruct c; cbn [n_acts act_order length]; lia.
Qed.
Lemma inv_counts k ts s : setup_ok O k -> inv O k ts s -> length (bodies O k) = 1 + count_nodes (k_sizes k) (k_widths k) (k_acts k) /\
  length ts = count_edges 1 (k_sizes k) (k_widths k) (k_acts k).
Proof.
  intros Hk H. destruct (plan_counts k) as [A B]. destruct (plan_spec O k Hk) as (_ & Hok & _). split; [by rewrite bodies_length, A|].
  rewrite (Permutation_length (lay_links _ _ _ (i_lay _ _ _ _ H))), links_elen. unfold rows_. rewrite fmap_cons. rewrite elen_all by done. apply B.
Qed.
End counts.

Section more.
Context {F : Type} (O : num F).
Lemma rows_path ps : forall base sizes, (forall i p, ps !! i = Some p -> sizes !! i = Some p.1.1.1 /\ sizes !! (i + 1) = Some p.1.1.2) -> length ps = length sizes - 1 ->
  length (rows_all base ps) = path_length sizes.
Proof.
  induction ps as [|p ps IH]; intros base sizes H L.
  - destruct sizes as [|a [|b sizes]]; [done|done|cbn in L; lia].
  - destruct (H 0 p eq_refl) as [E1 E2]. destruct sizes as [|a [|b sizes]]; [done|done|]. cbn in E1, E2. injection E1 as ->. injection E2 as ->.
    cbn [rows_all]. rewrite app_length. change (path_length (p.1.1.1 :: p.1.1.2 :: sizes)) with (p.1.1.1 * p.1.1.2 + 2 + path_length (p.1.1.2 :: sizes)). f_equal.
    + rewrite <- (fmap_length (fun r : nat * list nat => length r.2)). rewrite prows_lengths, app_length, replicate_length. done.
    + apply IH; [|cbn [length] in *; lia]. intros i q Hq. apply (H (S i) q Hq).
Qed.
Lemma rows_length (k : setup F) : setup_ok O k -> length (rows_ k) - 1 = path_length (k_sizes k).
Proof.
  intros Hk. destruct (plan_spec O k Hk) as (L & _ & Hs). unfold rows_. cbn [length]. rewrite Nat.sub_succ, Nat.sub_0_r. apply rows_path; [|done].
  intros i p Hp. destruct (Hs i p Hp) as (A & B & _). done.
Qed.
Lemma bodies_lookup rnd ps : forall base i p j, ps !! i = Some p -> j < p.1.2 * p.1.1.1 * p.1.1.2 ->
  bodies_all O rnd base ps !! (psum (take i ps) + j) = Some (Weight p.1.1.1 p.1.1.2 (j / p.1.2) (if decide (j mod p.1.2 = 0) then n_z O 0 else rnd (base + psum (take i ps) + j))).
Proof.
  induction ps as [|q ps IH]; intros base i p j Hi Hj; [done|]. destruct i as [|i]; cbn in Hi.
  - injection Hi as ->. cbn [take psum bodies_all plus]. unfold pbodies, lbodies. rewrite <- app_assoc. rewrite lookup_app_l by (rewrite wbodies_length; lia).
    unfold wbodies. rewrite list_lookup_fmap, lookup_seq_lt by done. cbn. by rewrite Nat.add_0_r.
  - cbn [take psum bodies_all]. rewrite lookup_app_r by (rewrite pbodies_length; lia). rewrite pbodies_length. replace (lsize q + psum (take i ps) + j - lsize q) with (psum (take i ps) + j) by lia.
    rewrite (IH _ _ _ _ Hi Hj). replace (base + lsize q + psum (take i ps) + j) with (base + (lsize q + psum (take i ps)) + j) by lia. done.
Qed.
Lemma init_candidate junk rnd k s i q c a b w : setup_ok O k -> init_aco O junk rnd k = Some s ->
  k_sizes k !! i = Some a -> k_sizes k !! (i + 1) = Some b -> k_widths k !! i = Some w -> q < a * b -> c < w ->
  exists id, nth i (s_layers s) [] !! (q * w + c) = Some id /\ candidate s i q c = Some (if decide (c = 0) then n_z O 0 else rnd id).
Proof.
  intros Hk E Ea Eb Ew Hq Hc. destruct (init_aco_ok O junk rnd k Hk) as (ts & nodes & edges & E' & _). rewrite E' in E. injection E as <-. unfold candidate.
  cbn [s_widths s_layers s_graph ready g_nodes]. rewrite Ew. cbn [mbind option_bind]. destruct (plan_spec O k Hk) as (L & _ & Hs).
  destruct (lookup_lt_is_Some_2 (plan k) i) as [p Hp]; [apply lookup_lt_Some in Eb; lia|]. destruct (Hs i p Hp) as (A1 & A2 & A3 & _).
  assert (p.1.1.1 = a /\ p.1.1.2 = b /\ p.1.2 = w) as (Pa & Pb & Pw) by (repeat split; congruence).
  assert (Hlt : q * w + c < p.1.2 * p.1.1.1 * p.1.1.2).
  { rewrite Pa, Pb, Pw. apply Nat.lt_le_trans with (S q * w); [lia|]. replace (w * a * b) with (a * b * w) by lia. by apply Nat.mul_le_mono_r. }
  exists (1 + psum (take i (plan k)) + (q * w + c)). assert (Eids := ids_lookup _ 1 _ _ Hp). split.
  - erewrite nth_lookup_Some by exact Eids. by apply lookup_seq_lt.
  - rewrite Eids. cbn [mbind option_bind]. rewrite lookup_seq_lt by done. cbn [mbind option_bind]. rewrite list_lookup_fmap.
    unfold mk. cbn [g_nodes]. rewrite list_lookup_imap.
    assert (El : (Empty :: bodies_all O rnd 1 (plan k)) !! (1 + psum (take i (plan k)) + (q * w + c)) = bodies_all O rnd 1 (plan k) !! (psum (take i (plan k)) + (q * w + c))) by done.
    rewrite El, (bodies_lookup rnd _ 1 _ _ _ Hp Hlt). cbn [fmap option_fmap option_map mbind option_bind]. cbn. f_equal. rewrite Pw. rewrite Nat.add_comm, Nat.mod_add, Nat.mod_small by lia. done.
Qed.
End more.
