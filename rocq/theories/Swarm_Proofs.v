(** The loops of the particle swarm. *)
From Coq Require Import Reals Lra.
From Verif Require Import BaseLemmas Aco_Spec Aco_Proofs Aco2_Proofs Aco3_Proofs Aco4_Proofs Aco5_Proofs Aco6_Proofs Aco7_Proofs Aco8_Proofs Pher_Spec Pher_Proofs Pher2_Proofs Swarm_Spec.
Ltac bnd H x E := match type of H with mbind _ ?o = _ => destruct o as [x|] eqn:E; [|done] end; cbn [mbind option_bind] in H.
Open Scope nat_scope.

Section swarm.
Context {F : Type} (O : num F).
Implicit Types (g : graph F) (s : aco F).

Lemma each_app {A} (f : A -> graph F -> option (graph F)) l l' g : each f (l ++ l') g = (g' ← each f l g; each f l' g').
Proof. revert g. induction l as [|x l IH]; intros g; [done|]. cbn [app each]. destruct (f x g); cbn [mbind option_bind]; [apply IH|done]. Qed.
(** the nodes of D changed by h *)
Definition upto (h : nat -> node F -> node F) (D : list nat) g : graph F := Graph (imap (fun u n => if decide (u ∈ D) then h u n else n) (g_nodes g)) (g_edges g).
Lemma upto_nil h g : upto h [] g = g.
Proof. unfold upto. rewrite imap_id; [by destruct g|]. intros i x _. rewrite decide_False by apply not_elem_of_nil. done. Qed.
Lemma upto_lookup h D g u : g_nodes (upto h D g) !! u = (fun n => if decide (u ∈ D) then h u n else n) <$> g_nodes g !! u.
Proof. cbn. by rewrite list_lookup_imap. Qed.
Lemma upto_snoc h D g x n : g_nodes g !! x = Some n -> x ∉ D -> Graph (<[x := h x n]> (g_nodes (upto h D g))) (g_edges g) = upto h (D ++ [x]) g.
Proof.
  intros En Hx. unfold upto. f_equal. apply list_eq. intros u. cbn [g_nodes]. destruct (decide (u = x)) as [->|Hne].
  - rewrite list_lookup_insert by (rewrite imap_length; by eapply lookup_lt_Some). rewrite list_lookup_imap, En. cbn. rewrite decide_True by (apply elem_of_app; right; left). done.
  - rewrite list_lookup_insert_ne by done. rewrite !list_lookup_imap. destruct (g_nodes g !! u); [|done]. cbn. f_equal.
    destruct (decide (u ∈ D)); [rewrite decide_True by (apply elem_of_app; by left); done|]. rewrite decide_False; [done|]. rewrite elem_of_app, elem_of_list_singleton. tauto.
Qed.
Lemma each_local (f : nat -> graph F -> option (graph F)) h l g : NoDup l -> Forall (fun u => u < length (g_nodes g)) l ->
  (forall D x n, x ∈ l -> x ∉ D -> g_nodes g !! x = Some n -> f x (upto h D g) = Some (Graph (<[x := h x n]> (g_nodes (upto h D g))) (g_edges g))) ->
  each f l g = Some (upto h l g).
Proof.
  intros HN Hl Hf. induction l as [|x l IH] using rev_ind; [by rewrite upto_nil|]. apply NoDup_app in HN as (HN & HD & _). apply Forall_app in Hl as [Hl Hx]. apply list.Forall_cons in Hx as [Hx _].
  rewrite each_app, IH; [|done|done|intros D y n Hy; apply Hf; apply elem_of_app; by left]. cbn [mbind option_bind each]. destruct (lookup_lt_is_Some_2 _ _ Hx) as [n En].
  assert (Hxl : x ∉ l) by (intros Z; apply (HD x Z); left). rewrite (Hf l x n); [|apply elem_of_app; right; left|done|done]. cbn [mbind option_bind]. f_equal. by apply upto_snoc.
Qed.

(** the rows *)
Lemma row_of_seq b len w j : j * w + w <= len -> row_of (seq b len) w j = Some (seq (b + j * w) w).
Proof.
  intros H. unfold row_of. apply mapM_Some. apply Forall2_lookup. intros i. destruct (decide (i < w)) as [Hi|Hi].
  - rewrite !lookup_seq_lt by done. constructor. cbn. unfold rd. rewrite lookup_seq_lt by lia. f_equal. lia.
  - rewrite !lookup_seq_ge by lia. constructor.
Qed.
Definition row_list (b w r : nat) : list (list nat) := (fun j => seq (b + j * w) w) <$> seq 0 r.
Definition rows_of (base : nat) (ps : list lplan) : list (list nat) := concat (imap (fun i p => row_list (base + psum (take i ps)) p.1.2 (p.1.1.1 * p.1.1.2)) ps).
Lemma for_loop_rows (f : list nat -> graph F -> option (graph F)) b len w r g : r * w <= len ->
  for_loop r 0 (fun j g => row ← row_of (seq b len) w j; f row g) g = each f (row_list b w r) g.
Proof.
  intros H. revert g. induction r as [|r IH]; intros g; [done|]. rewrite for_loop_S_r. unfold row_list. rewrite seq_S, fmap_app, each_app. fold (row_list b w r). rewrite IH by (cbn in H; lia).
  destruct (each f (row_list b w r) g) as [g'|]; [|done]. cbn [mbind option_bind]. cbn [plus]. rewrite row_of_seq by (cbn in H; lia). cbn [mbind option_bind fmap list_fmap each].
  destruct (f _ g'); done.
Qed.
Lemma for_loop_layers (f : list nat -> graph F -> option (graph F)) (body : nat -> graph F -> option (graph F)) (Ls : list (list (list nat))) g :
  (forall i L g, Ls !! i = Some L -> body i g = each f L g) -> for_loop (length Ls) 0 body g = each f (concat Ls) g.
Proof.
  intros H. revert g. induction Ls as [|L Ls IH] using rev_ind; intros g; [done|]. rewrite app_length. cbn [length]. rewrite Nat.add_1_r, for_loop_S_r, concat_app, each_app. cbn [concat]. rewrite app_nil_r.
  rewrite IH by (intros i L' g' E; apply H; by apply lookup_app_l_Some). destruct (each f (concat Ls) g) as [g'|]; [|done]. cbn [mbind option_bind plus]. apply H. by apply list_lookup_middle.
Qed.
Lemma swarm_loop k ts s (f : list nat -> graph F -> option (graph F)) : setup_ok O k -> inv O k ts s ->
  for_loop (length (s_sizes s) - 1) 0 (fun i g => r ← rows_of_sizes s i; w ← rd (s_widths s) i; nodes ← rd (s_layers s) i; for_loop r 0 (fun j g => row ← row_of nodes w j; f row g) g) (s_graph s) =
  each f (rows_of 1 (plan k)) (s_graph s).
Proof.
  intros Hk H. destruct (plan_spec O k Hk) as (L & _ & Hs). rewrite (i_sizes _ _ _ _ H), <- L. unfold rows_of.
  rewrite <- (imap_length (fun i (p : lplan) => row_list (1 + psum (take i (plan k))) p.1.2 (p.1.1.1 * p.1.1.2)) (plan k)) at 1.
  apply for_loop_layers. intros i Lr g E. rewrite list_lookup_imap in E. destruct (plan k !! i) as [p|] eqn:Ep; [|done]. cbn in E. injection E as <-. destruct (Hs i p Ep) as (A & B & C & _).
  unfold rows_of_sizes, rd. rewrite (i_sizes _ _ _ _ H), (i_widths _ _ _ _ H), (i_layers _ _ _ _ H), A. cbn [mbind option_bind]. rewrite B. cbn [mbind option_bind]. rewrite C. cbn [mbind option_bind].
  rewrite (ids_lookup _ 1 _ _ Ep). cbn [mbind option_bind]. apply for_loop_rows. lia.
Qed.
Lemma each_concat {A} (f : A -> graph F -> option (graph F)) Ls g : each (fun row g => each f row g) Ls g = each f (concat Ls) g.
Proof. revert g. induction Ls as [|L Ls IH]; intros g; [done|]. cbn [concat each]. rewrite each_app. destruct (each f L g); cbn [mbind option_bind]; [apply IH|done]. Qed.
Lemma row_list_concat b w r : concat (row_list b w r) = seq b (r * w).
Proof.
  unfold row_list. induction r as [|r IH]; [done|]. rewrite seq_S, fmap_app, concat_app, IH. cbn [fmap list_fmap concat plus]. rewrite app_nil_r, <- seq_app. f_equal. cbn. lia.
Qed.
Lemma rows_of_bounds ps : forall base, Forall (fun u => base <= u < base + psum ps) (concat (rows_of base ps)) /\ NoDup (concat (rows_of base ps)).
Proof.
  induction ps as [|p ps IH]; intros base; [split; constructor|]. unfold rows_of. rewrite imap_cons. cbn [concat take psum]. rewrite Nat.add_0_r, concat_app, row_list_concat.
  assert (Ei : concat (imap ((fun i p0 => row_list (base + psum (take i (p :: ps))) p0.1.2 (p0.1.1.1 * p0.1.1.2)) ∘ S) ps) = rows_of (base + lsize p) ps).
  { unfold rows_of. f_equal. apply imap_ext. intros i q _. cbn [take psum compose]. by rewrite Nat.add_assoc. }
  rewrite Ei. destruct (IH (base + lsize p)) as [A B]. assert (Hl : p.1.1.1 * p.1.1.2 * p.1.2 <= lsize p) by (unfold lsize; lia). split.
  - apply Forall_app. split; [apply list.Forall_forall; intros u Hu; apply elem_of_seq in Hu; lia|]. eapply list.Forall_impl; [exact A|]. cbn. intros; lia.
  - apply NoDup_app. split; [apply NoDup_seq|]. split; [|done]. intros u Hu Hu'. apply elem_of_seq in Hu. rewrite list.Forall_forall in A. specialize (A u Hu'). cbn in A. lia.
Qed.
(** the particles are the members of the rows *)
Lemma in_space_plan k i q c : setup_ok O k -> in_space k i q c <-> exists p, plan k !! i = Some p /\ q < p.1.1.1 * p.1.1.2 /\ c < p.1.2.
Proof.
  intros Hk. destruct (plan_spec O k Hk) as (L & _ & Hs). split.
  - intros (a & b & w & Ea & Eb & Ew & Hq & Hc). destruct (lookup_lt_is_Some_2 (plan k) i) as [p Hp]; [apply lookup_lt_Some in Eb; lia|]. destruct (Hs i p Hp) as (A1 & A2 & A3 & _).
    exists p. split; [done|]. assert (p.1.1.1 = a /\ p.1.1.2 = b /\ p.1.2 = w) as (-> & -> & ->) by (repeat split; congruence). done.
  - intros (p & Hp & Hq & Hc). destruct (Hs i p Hp) as (A1 & A2 & A3 & _). by exists p.1.1.1, p.1.1.2, p.1.2.
Qed.
Lemma particle_id k ts s i p q c : inv O k ts s -> setup_ok O k -> plan k !! i = Some p -> q < p.1.1.1 * p.1.1.2 -> c < p.1.2 -> particle s i q c = Some (1 + psum (take i (plan k)) + q * p.1.2 + c).
Proof.
  intros H Hk Hp Hq Hc. destruct (plan_spec O k Hk) as (L & _ & Hs). destruct (Hs i p Hp) as (A1 & A2 & A3 & _). unfold particle. rewrite (i_widths _ _ _ _ H), (i_layers _ _ _ _ H), A3. cbn [mbind option_bind].
  rewrite (ids_lookup _ 1 _ _ Hp). cbn [mbind option_bind]. rewrite lookup_seq_lt; [f_equal; lia|]. apply Nat.lt_le_trans with (S q * p.1.2); [lia|].
  replace (p.1.2 * p.1.1.1 * p.1.1.2) with (p.1.1.1 * p.1.1.2 * p.1.2) by lia. by apply Nat.mul_le_mono_r.
Qed.
Lemma rows_of_row base ps i p q : ps !! i = Some p -> q < p.1.1.1 * p.1.1.2 -> seq (base + psum (take i ps) + q * p.1.2) p.1.2 ∈ rows_of base ps.
Proof.
  intros Hp Hq. unfold rows_of. apply elem_of_list_In, in_concat. exists (row_list (base + psum (take i ps)) p.1.2 (p.1.1.1 * p.1.1.2)). split; apply elem_of_list_In.
  - apply elem_of_list_lookup. exists i. rewrite list_lookup_imap, Hp. done.
  - unfold row_list. apply elem_of_list_fmap. exists q. split; [done|]. apply elem_of_seq. lia.
Qed.
Lemma rows_of_inv base ps row : row ∈ rows_of base ps -> exists i p q, ps !! i = Some p /\ q < p.1.1.1 * p.1.1.2 /\ row = seq (base + psum (take i ps) + q * p.1.2) p.1.2.
Proof.
  intros H. apply elem_of_list_In, in_concat in H as (L & HL & Hr). apply elem_of_list_In in HL, Hr. apply elem_of_list_lookup in HL as [i Hi]. rewrite list_lookup_imap in Hi.
  destruct (ps !! i) as [p|] eqn:Ep; [|done]. cbn in Hi. injection Hi as <-. unfold row_list in Hr. apply elem_of_list_fmap in Hr as (q & -> & Hq). apply elem_of_seq in Hq. exists i, p, q. split; [done|]. split; [lia|done].
Qed.
Lemma is_particle_rows k ts s u : inv O k ts s -> setup_ok O k -> is_particle k s u <-> u ∈ concat (rows_of 1 (plan k)).
Proof.
  intros H Hk. split.
  - intros (i & q & c & Hin & Hp). apply (in_space_plan k i q c Hk) in Hin as (p & Ep & Hq & Hc). rewrite (particle_id k ts s i p q c H Hk Ep Hq Hc) in Hp. injection Hp as <-.
    apply elem_of_list_In, in_concat. exists (seq (1 + psum (take i (plan k)) + q * p.1.2) p.1.2). split; apply elem_of_list_In; [by apply rows_of_row|]. apply elem_of_seq. lia.
  - intros Hu. apply elem_of_list_In, in_concat in Hu as (row & Hr & Hu). apply elem_of_list_In in Hr, Hu. apply rows_of_inv in Hr as (i & p & q & Ep & Hq & ->). apply elem_of_seq in Hu.
    exists i, q, (u - (1 + psum (take i (plan k)) + q * p.1.2)). assert (Hc : u - (1 + psum (take i (plan k)) + q * p.1.2) < p.1.2) by lia. split.
    + apply (in_space_plan k _ _ _ Hk). eauto.
    + rewrite (particle_id k ts s i p q _ H Hk Ep Hq Hc). f_equal. lia.
Qed.
Lemma particle_in_range k ts s u : inv O k ts s -> setup_ok O k -> is_particle k s u -> exists n a b c x, at_ s u = Some n /\ o_body n = Weight a b c x.
Proof.
  intros H Hk Hu. destruct Hu as (i & q & c & Hin & Hp). apply (in_space_plan k i q c Hk) in Hin as (p & Ep & Hq & Hc). rewrite (particle_id k ts s i p q c H Hk Ep Hq Hc) in Hp. injection Hp as <-.
  assert (Hj : q * p.1.2 + c < p.1.2 * p.1.1.1 * p.1.1.2). { apply Nat.lt_le_trans with (S q * p.1.2); [lia|]. replace (p.1.2 * p.1.1.1 * p.1.1.2) with (p.1.1.1 * p.1.1.2 * p.1.2) by lia. by apply Nat.mul_le_mono_r. }
  pose proof (bodies_lookup O (fun _ => n_z O 0) (plan k) 1 i p _ Ep Hj) as Eb. assert (Eb' : bodies O k !! (1 + psum (take i (plan k)) + q * p.1.2 + c) = bodies_all O (fun _ => n_z O 0) 1 (plan k) !! (psum (take i (plan k)) + (q * p.1.2 + c))).
  { unfold bodies. replace (1 + psum (take i (plan k)) + q * p.1.2 + c) with (S (psum (take i (plan k)) + (q * p.1.2 + c))) by lia. done. }
  pose proof (i_shape _ _ _ _ H) as Hsh. apply (f_equal (fun l => l !! (1 + psum (take i (plan k)) + q * p.1.2 + c))) in Hsh. rewrite !list_lookup_fmap, Eb', Eb in Hsh. unfold at_.
  destruct (g_nodes (s_graph s) !! _) as [n|]; [|done]. cbn in Hsh. injection Hsh as Hsh. unfold shape in Hsh. destruct (o_body n) as [|a b d x|fl|a b] eqn:Ebn; cbn in Hsh; try done. exists n, a, b, d, x. done.
Qed.
Lemma weights_in_rows rnd ps : forall base b j x, bodies_all O rnd b ps !! j = Some x -> is_weight x = true -> base + j ∈ concat (rows_of base ps).
Proof.
  induction ps as [|p ps IH]; intros base b j x Hj Hx; [done|]. unfold rows_of. rewrite imap_cons. cbn [concat take psum]. rewrite Nat.add_0_r, concat_app, row_list_concat.
  assert (Ei : concat (imap ((fun i p0 => row_list (base + psum (take i (p :: ps))) p0.1.2 (p0.1.1.1 * p0.1.1.2)) ∘ S) ps) = rows_of (base + lsize p) ps).
  { unfold rows_of. f_equal. apply imap_ext. intros i q _. cbn [take psum compose]. by rewrite Nat.add_assoc. }
  rewrite Ei. clear Ei. cbn [bodies_all] in Hj. apply elem_of_app. apply lookup_app_Some in Hj as [Hj|[Hge Hj]].
  - left. unfold pbodies, lbodies in Hj. apply lookup_app_Some in Hj as [Hj|[_ Hj]].
    + apply lookup_lt_Some in Hj. rewrite wbodies_length in Hj. apply elem_of_seq. lia.
    + exfalso. apply elem_of_list_lookup_2 in Hj. cbn [app] in Hj. apply elem_of_cons in Hj as [->|Hj]; [done|]. unfold act_bodies in Hj. destruct p.2; [by apply elem_of_list_singleton in Hj as ->|]. apply elem_of_list_fmap in Hj as (? & -> & _). done.
  - right. rewrite pbodies_length in Hge, Hj. replace (base + j) with (base + lsize p + (j - lsize p)) by lia. by eapply IH.
Qed.
Lemma weight_is_particle k ts s u n : inv O k ts s -> setup_ok O k -> at_ s u = Some n -> is_weight (o_body n) = true -> is_particle k s u.
Proof.
  intros H Hk Hn Hw. apply (is_particle_rows k ts s u H Hk). pose proof (i_shape _ _ _ _ H) as Hsh. apply (f_equal (fun l => l !! u)) in Hsh. unfold at_ in Hn. rewrite !list_lookup_fmap, Hn in Hsh. cbn in Hsh.
  destruct (bodies O k !! u) as [x|] eqn:Ex; [|done]. cbn in Hsh. injection Hsh as Hsh. assert (Hx : is_weight x = true) by (destruct x, (o_body n); done). unfold bodies in Ex. destruct u as [|u]; cbn in Ex; [by injection Ex as <-|].
  exact (weights_in_rows _ _ 1 _ u x Ex Hx).
Qed.
End swarm.
