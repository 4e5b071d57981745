(** Trails, networks and choices of the ant-colony search, in the terms of the specification. *)
From Verif Require Import BaseLemmas Aco_Spec Aco_Proofs Aco2_Proofs Aco3_Proofs Aco4_Proofs Aco5_Proofs Aco6_Proofs.
Open Scope nat_scope.

Section net.
Context {F : Type} (O : num F).
Let zero : F := n_z O 0.
Implicit Types g : graph F.

Lemma shape_inv (b : body F) b0 : shape b = shape b0 -> match b0 with Weight a c d _ => exists x, b = Weight a c d x | _ => b = b0 end.
Proof. destruct b, b0; cbn; intros E; try done; [injection E as -> -> ->; eauto|by injection E as ->|by injection E as -> ->]. Qed.
Lemma placed_all g rnd ps : forall base pre, (shape ∘ o_body) <$> g_nodes g = pre ++ (shape <$> bodies_all O rnd base ps) -> length pre = base -> Forall lok ps -> all_placed g base ps.
Proof.
  induction ps as [|p ps IH]; intros base pre E L Hok; [done|]. apply list.Forall_cons in Hok as [Hp Hok]. cbn [bodies_all all_placed] in *. split.
  - assert (Hlk : forall j b, pbodies O rnd base p !! j = Some b -> exists n, g_nodes g !! (base + j) = Some n /\ shape (o_body n) = shape b).
    { intros j b Ej. apply (f_equal (fun l => l !! (base + j))) in E. rewrite list_lookup_fmap, lookup_app_r in E by lia. replace (base + j - length pre) with j in E by lia.
      rewrite fmap_app, lookup_app_l in E by (rewrite fmap_length; by eapply lookup_lt_Some). rewrite list_lookup_fmap, Ej in E.
      destruct (g_nodes g !! (base + j)) as [n|]; [|done]. cbn in E. injection E as E. eauto. }
    unfold pbodies, lbodies in Hlk. assert (Lw := wbodies_length O rnd base p.1.1.1 p.1.1.2 p.1.2). repeat split.
    + intros q j Hq Hj. assert (Hlt : q * p.1.2 + j < p.1.2 * p.1.1.1 * p.1.1.2).
      { apply Nat.lt_le_trans with (S q * p.1.2); [lia|]. replace (p.1.2 * p.1.1.1 * p.1.1.2) with (p.1.1.1 * p.1.1.2 * p.1.2) by lia. by apply Nat.mul_le_mono_r. }
      edestruct (Hlk (q * p.1.2 + j)) as (n & En & Es).
      { rewrite lookup_app_l by (rewrite Lw; lia). unfold wbodies. rewrite list_lookup_fmap, lookup_seq_lt by done. reflexivity. }
      apply shape_inv in Es as [x Ex]. exists n, x. split; [by rewrite <- En, Nat.add_assoc|]. rewrite Ex. f_equal. cbn [plus].
      rewrite Nat.add_comm, Nat.div_add by lia. by rewrite Nat.div_small.
    + edestruct (Hlk (p.1.2 * (p.1.1.1 * p.1.1.2))) as (n & En & Es).
      { rewrite lookup_app_r by lia. rewrite Lw, Nat.sub_diag. reflexivity. }
      apply shape_inv in Es. eauto.
    + intros j Hj. assert (Hb : act_bodies p.2 !! j = Some (Activation (flag_of p.2 j) : body F)).
      { destruct p.2; cbn in *; [by assert (j = 0) as -> by lia|]. destruct j as [|[|[|[|[|[|]]]]]]; try lia; done. }
      edestruct (Hlk (p.1.2 * (p.1.1.1 * p.1.1.2) + 1 + j)) as (n & En & Es).
      { rewrite lookup_app_r by lia. rewrite Lw. replace (_ + 1 + j - _) with (S j) by lia. cbn. exact Hb. }
      apply shape_inv in Es. exists n. split; [|done]. rewrite <- En. f_equal. lia.
  - apply (IH _ (pre ++ (shape <$> pbodies O rnd base p))); [|rewrite app_length, fmap_length, pbodies_length; lia|done]. by rewrite E, fmap_app, app_assoc.
Qed.
Lemma inv_placed k ts s : setup_ok O k -> inv O k ts s -> all_placed (s_graph s) 1 (plan k).
Proof.
  intros Hk H. destruct (plan_spec O k Hk) as (_ & Hok & _). eapply (placed_all _ (fun _ => n_z O 0) _ 1 [Empty]); [|done|done]. exact (i_shape _ _ _ _ H).
Qed.
Lemma all_placed_lookup g ps : forall base i p, all_placed g base ps -> ps !! i = Some p -> placed g (base + psum (take i ps)) p.
Proof.
  induction ps as [|q ps IH]; intros base i p H Hi; [done|]. destruct H as [H1 H2]. destruct i as [|i]; cbn in Hi.
  - injection Hi as <-. cbn [take psum]. by rewrite Nat.add_0_r.
  - specialize (IH _ _ _ H2 Hi). cbn [take psum]. by rewrite Nat.add_assoc.
Qed.
Lemma net_lookup top g ps : forall base cs i p c, Forall2 pick_ok ps cs -> ps !! i = Some p -> cs !! i = Some c ->
  net O top g base ps cs !! i = Some (layer_of O top g (base + psum (take i ps)) p c).
Proof.
  induction ps as [|q ps IH]; intros base cs i p c H Hp Hc; inversion H as [|? c' ? cs' H1 H2]; subst; [done|]. destruct i as [|i]; cbn in Hp, Hc.
  - injection Hp as <-. injection Hc as <-. cbn [net lookup list_lookup take psum]. by rewrite Nat.add_0_r.
  - cbn [net take psum]. change ((?x :: ?l) !! S i) with (l !! i). rewrite Nat.add_assoc. by apply IH.
Qed.
Lemma net_length top g ps : forall base cs, Forall2 pick_ok ps cs -> length (net O top g base ps cs) = length ps.
Proof. induction ps as [|q ps IH]; intros base cs H; inversion H; subst; cbn [net length]; [done|]. by rewrite IH. Qed.
Lemma ids_lookup ps : forall base i p, ps !! i = Some p -> ids_all base ps !! i = Some (seq (base + psum (take i ps)) (p.1.2 * p.1.1.1 * p.1.1.2)).
Proof.
  induction ps as [|q ps IH]; intros base i p Hi; [done|]. destruct i as [|i]; cbn in Hi.
  - injection Hi as <-. cbn [ids_all lookup list_lookup take psum]. by rewrite Nat.add_0_r.
  - cbn [ids_all take psum]. change ((?x :: ?l) !! S i) with (l !! i). rewrite (IH _ _ _ Hi). do 2 f_equal. lia.
Qed.
Definition choices (ps : list lplan) (cs : list (list nat * nat)) : list choice := zip_with (fun (p : lplan) (c : list nat * nat) => Choice c.1 (flag_of p.2 c.2)) ps cs.
Lemma flag_allowed a j : j < length (act_order a) -> allowed a (flag_of a j).
Proof. destruct a; cbn; [done|]. intros H. destruct j as [|[|[|[|[|[|]]]]]]; try lia; set_solver. Qed.
Lemma candidate_placed k ts s i p q j : setup_ok O k -> inv O k ts s -> plan k !! i = Some p -> q < p.1.1.1 * p.1.1.2 -> j < p.1.2 ->
  candidate s i q j = Some (wval O (s_graph s) (1 + psum (take i (plan k)) + q * p.1.2 + j)).
Proof.
  intros Hk H Hp Hq Hj. destruct (plan_spec O k Hk) as (_ & _ & Hs). destruct (Hs i p Hp) as (_ & _ & Ew & _). unfold candidate.
  rewrite (i_widths _ _ _ _ H), Ew. cbn [mbind option_bind]. rewrite (i_layers _ _ _ _ H), (ids_lookup _ _ _ _ Hp). cbn [mbind option_bind].
  assert (Hlt : q * p.1.2 + j < p.1.2 * p.1.1.1 * p.1.1.2).
  { apply Nat.lt_le_trans with (S q * p.1.2); [lia|]. replace (p.1.2 * p.1.1.1 * p.1.1.2) with (p.1.1.1 * p.1.1.2 * p.1.2) by lia. by apply Nat.mul_le_mono_r. }
  rewrite lookup_seq_lt by done. cbn [mbind option_bind]. destruct (all_placed_lookup _ _ _ _ _ (inv_placed _ _ _ Hk H) Hp) as (Hw & _).
  destruct (Hw q j Hq Hj) as (n & x & En & Eb). unfold wval. rewrite <- Nat.add_assoc in En. rewrite <- (Nat.add_assoc _ (q * p.1.2)). rewrite En. cbn [mbind option_bind]. rewrite Eb.
  unfold weight_of. by rewrite Eb.
Qed.
Lemma net_for k ts s cs : setup_ok O k -> inv O k ts s -> Forall2 pick_ok (plan k) cs -> network_for O k s (choices (plan k) cs) (net O opIndexCopy (s_graph s) 1 (plan k) cs).
Proof.
  intros Hk H Hcs. destruct (plan_spec O k Hk) as (Lp & _ & Hs). pose proof (Forall2_length _ _ _ Hcs) as Lc. split; [unfold choices; rewrite zip_with_length; lia|].
  split; [by rewrite net_length|]. intros i ch l Hch Hl. unfold choices in Hch. apply lookup_zip_with_Some in Hch as (p & c & -> & Hp & Hc).
  rewrite (net_lookup _ _ _ _ _ _ _ _ Hcs Hp Hc) in Hl. injection Hl as <-. destruct (Forall2_lookup_lr _ _ _ _ _ _ Hcs Hp Hc) as (L1 & L2 & L3).
  destruct (Hs i p Hp) as (E1 & E2 & E3 & E4). exists p.1.1.1, p.1.1.2, p.1.2, p.2. cbn [c_candidates c_act layer_of l_in l_out l_biases l_act l_weights].
  repeat split; try done; [by apply flag_allowed|unfold cand_ids; by rewrite !imap_length|].
  intros q Hq. destruct (lookup_lt_is_Some_2 c.1 q ltac:(lia)) as [j Ej]. rewrite list.Forall_forall in L2. pose proof (L2 j (elem_of_list_lookup_2 _ _ _ Ej)) as Hj.
  exists j, (wval O (s_graph s) (1 + psum (take i (plan k)) + q * p.1.2 + j)). split; [done|]. split; [done|]. split; [|by eapply candidate_placed].
  rewrite list_lookup_imap. unfold cand_ids. rewrite list_lookup_imap, Ej. cbn [fmap option_fmap option_map]. unfold kept. rewrite (bool_decide_eq_true_2 (opIndexCopy = opIndexCopy)) by done.
  rewrite orb_true_r. done.
Qed.
Lemma full_lands k ts s t : inv O k ts s -> full ts (rows_ k) t -> exists ls, steps ts 0 t = Some ls /\ Forall2 lands ls (rows_all 1 (plan k)).
Proof.
  intros H [L (ls & Els)]. exists ls. split; [done|]. destruct (steps_rows _ _ _ (inv_by_rows _ _ _ _ H) t 0 (0, [0]) 0 ls eq_refl ltac:(left) Els) as [A _].
  rewrite L in A. unfold rows_ in A. cbn [length drop] in A. rewrite Nat.sub_succ, Nat.sub_0_r, take_ge in A by done. done.
Qed.
Lemma follow_full k ts s t top : setup_ok O k -> inv O k ts s -> full ts (rows_ k) t -> top = opIndexCopy \/ top = opTake ->
  exists cs, Forall2 pick_ok (plan k) cs /\ follow O top (s_graph s) 0 t (Tracker None []) = Some (Tracker None (net O top (s_graph s) 1 (plan k) cs)) /\
    (exists ls, steps ts 0 t = Some ls /\ (fun l : link => l.1.2) <$> ls = net_nodes 1 (plan k) cs).
Proof.
  intros Hk H Hf Htop. destruct (full_lands _ _ _ _ H Hf) as (ls & Els & HF). destruct (plan_spec O k Hk) as (_ & Hok & _).
  destruct (net_build O top (s_graph s) (plan k) Htop 1 [] ls Hok (inv_placed _ _ _ Hk H) HF) as (cs & Hcs & En & Eb). exists cs. split; [done|]. split; [|eauto].
  assert (Hlen := inv_len _ _ _ _ H). rewrite (follow_steps O top _ ts 0 t ls); [exact Eb|apply (i_adj _ _ _ _ H)| | |done].
  - rewrite Hlen. apply (lay_wf _ _ _ (i_lay _ _ _ _ H)).
  - rewrite Hlen, bodies_length. lia.
Qed.
Lemma get_model_ok k ts s ant t : setup_ok O k -> inv O k ts s -> s_trails s !! ant = Some t -> full ts (rows_ k) t ->
  exists cs m, get_model O s ant = Some m /\ network_for O k s cs m.
Proof.
  intros Hk H Ht Hf. destruct (follow_full k ts s t opIndexCopy Hk H Hf ltac:(by left)) as (cs & Hcs & E & _). eexists _, _. split; [|by eapply net_for].
  unfold get_model, rd. rewrite Ht. cbn [mbind option_bind]. rewrite E. done.
Qed.
(** every choice has a trail *)
Lemma choice_pick k i p c : setup_ok O k -> plan k !! i = Some p -> choice_ok k i c -> exists a, pick_ok p (c_candidates c, a) /\ flag_of p.2 a = c_act c.
Proof.
  intros Hk Hp (input & output & w & act & E1 & E2 & E3 & E4 & L & Fc & Ha). destruct (plan_spec O k Hk) as (_ & _ & Hs). destruct (Hs i p Hp) as (D1 & D2 & D3 & D4).
  rewrite E1 in D1. rewrite E2 in D2. rewrite E3 in D3. rewrite E4 in D4. injection D1 as ->. injection D2 as ->. injection D3 as ->. injection D4 as ->.
  assert (exists a, a < length (act_order p.2) /\ flag_of p.2 a = c_act c) as (a & Ha1 & Ha2).
  { destruct p.2; cbn in Ha |- *; [exists 0; split; [lia|done]|]. repeat (apply elem_of_cons in Ha as [->|Ha]);
      [exists 0|exists 1|exists 2|exists 3|exists 4|exists 5|by apply not_elem_of_nil in Ha]; (split; [lia|done]). }
  exists a. done.
Qed.
Lemma choices_picks k cs : setup_ok O k -> length cs = length (k_sizes k) - 1 -> (forall i c, cs !! i = Some c -> choice_ok k i c) ->
  exists ps, Forall2 pick_ok (plan k) ps /\ choices (plan k) ps = cs.
Proof.
  intros Hk L Hc. destruct (plan_spec O k Hk) as (Lp & _ & _). rewrite <- Lp in L.
  assert (HX : forall i c, cs !! i = Some c -> exists p a, plan k !! i = Some p /\ pick_ok p (c_candidates c, a) /\ flag_of p.2 a = c_act c).
  { intros i c Ei. destruct (lookup_lt_is_Some_2 (plan k) i) as [p Hp]; [apply lookup_lt_Some in Ei; lia|]. destruct (choice_pick k i p c Hk Hp (Hc i c Ei)) as (a & A & B). eauto. }
  clear Hc Lp. revert cs L HX. generalize (plan k). intros ps. induction ps as [|p ps IH]; intros cs L HX.
  - destruct cs; [|done]. exists []. by split; [constructor|].
  - destruct cs as [|c cs]; [done|]. destruct (HX 0 c eq_refl) as (p' & a & Ep & A & B). cbn in Ep. injection Ep as <-.
    destruct (IH cs ltac:(cbn in L; lia) (fun i c' E => HX (S i) c' E)) as (qs & Hq & Eq). exists ((c_candidates c, a) :: qs). split; [by constructor|].
    unfold choices in *. cbn [zip_with]. rewrite Eq. cbn [fst snd]. rewrite B. by destruct c.
Qed.
Lemma every_choice k ts s cs : setup_ok O k -> inv O k ts s -> length cs = length (k_sizes k) - 1 -> (forall i c, cs !! i = Some c -> choice_ok k i c) ->
  exists t m, full ts (rows_ k) t /\ follow O opIndexCopy (s_graph s) 0 t (Tracker None []) = Some (Tracker None m) /\ network_for O k s cs m.
Proof.
  intros Hk H L Hc. destruct (choices_picks k cs Hk L Hc) as (ps & Hps & <-).
  destruct (rows_steps _ _ _ (inv_by_rows _ _ _ _ H) (net_nodes 1 (plan k) ps) 0 (0, [0]) 0 eq_refl ltac:(left)) as (t & ls & Els & Evs & Lt).
  { cbn [rows_ drop]. by apply net_nodes_rows. }
  assert (Hf : full ts (rows_ k) t). { split; [|eauto]. rewrite Lt, (Forall2_length _ _ _ (net_nodes_rows _ 1 _ Hps)). cbn [rows_ length]. lia. }
  destruct (follow_full k ts s t opIndexCopy Hk H Hf ltac:(by left)) as (qs & Hqs & E & ls' & Els' & Evs'). rewrite Els in Els'. injection Els' as <-.
  assert (qs = ps) as -> by (apply (net_nodes_inj (plan k) 1 qs ps Hqs Hps); by rewrite <- Evs', Evs). exists t. eexists. split; [done|]. split; [exact E|]. by eapply net_for.
Qed.
End net.
