(** The network that a trail builds. *)
From Verif Require Import BaseLemmas Aco_Spec Aco_Proofs Aco2_Proofs Aco3_Proofs Aco4_Proofs Aco5_Proofs.
Open Scope nat_scope.

Section build.
Context {F : Type} (O : num F).
Let zero : F := n_z O 0.
Implicit Types g : graph F.
Fixpoint build_all (top : nat) g (ls : list link) (t : tracker F) : option (tracker F) :=
  match ls with [] => Some t | l :: ls => m ← g_nodes g !! l.1.2; t ← build_step O top (o_body m) l.2 t; build_all top g ls t end.
Lemma build_all_app top g l1 l2 t : build_all top g (l1 ++ l2) t = t ← build_all top g l1 t; build_all top g l2 t.
Proof.
  revert t. induction l1 as [|l l1 IH]; intros t; [done|]. cbn [app build_all]. destruct (g_nodes g !! l.1.2); [|done]. cbn [mbind option_bind].
  destruct (build_step _ _ _ _ _); [|done]. cbn [mbind option_bind]. apply IH.
Qed.
Lemma follow_steps top g ts x trail ls t : adj g ts -> wf (length (g_nodes g)) ts -> x < length (g_nodes g) -> steps ts x trail = Some ls ->
  follow O top g x trail t = build_all top g ls t.
Proof.
  intros Ha Hw. revert x ls t. induction trail as [|i trail IH]; intros x ls t Hx E; cbn [steps] in E; [injection E as <-; done|].
  destruct (from_ x ts !! i) as [l|] eqn:El; [|done]. cbn [mbind option_bind] in E. destruct (steps ts l.1.2 trail) as [ls'|] eqn:E'; [|done]. cbn in E. injection E as <-.
  cbn [follow build_all]. destruct (lookup_lt_is_Some_2 _ _ Hx) as [n En]. unfold rd. rewrite En. cbn [mbind option_bind].
  pose proof (output_lookup g ts x n i Ha En) as Ho. rewrite El in Ho. destruct Ho as (e & y & Ee & Ey & Et).
  rewrite decide_False by (intros Z; rewrite Z in Ee; done). rewrite Ee. cbn [mbind option_bind]. rewrite Ey. cbn [mbind option_bind].
  assert (g_out y = l.1.2) as -> by (by rewrite <- Et). assert (g_op y = l.2) as -> by (by rewrite <- Et).
  destruct (g_nodes g !! l.1.2) as [m|] eqn:Em; [|done]. cbn [mbind option_bind]. destruct (build_step O top (o_body m) l.2 t) as [t'|]; [|done]. cbn [mbind option_bind].
  apply IH; [by eapply lookup_lt_Some|done].
Qed.
Definition lands (t : link) (r : nat * list nat) : Prop := t.1.2 ∈ r.2 /\ t.2 = r.1.
Lemma steps_rows g ts rows : by_rows g ts rows -> forall trail p r x ls, rows !! p = Some r -> x ∈ r.2 -> steps ts x trail = Some ls ->
  Forall2 lands ls (take (length trail) (drop (S p) rows)) /\ length ls = length trail.
Proof.
  intros Hby. induction trail as [|i trail IH]; intros p r x ls Hp Hx E; cbn [steps] in E; [injection E as <-; split; [constructor|done]|].
  destruct (from_ x ts !! i) as [l|] eqn:El; [|done]. cbn [mbind option_bind] in E. destruct (steps ts l.1.2 trail) as [ls'|] eqn:E'; [|done]. cbn in E. injection E as <-.
  destruct (proj2 Hby p r x Hp Hx) as [Ef _]. assert (Ht := elem_of_list_lookup_2 _ _ _ El). rewrite Ef in Ht.
  destruct (rows !! S p) as [r'|] eqn:Hp'; [|by apply not_elem_of_nil in Ht]. cbn in Ht. apply elem_of_list_fmap in Ht as (c & -> & Hc). cbn in E'.
  destruct (IH _ _ _ _ Hp' Hc E') as [A B]. rewrite (drop_S _ r' (S p)) by done. cbn [length take]. split; [|by rewrite B]. constructor; [|done]. done.
Qed.
Lemma rows_steps g ts rows : by_rows g ts rows -> forall vs p r x, rows !! p = Some r -> x ∈ r.2 -> Forall2 (fun v r => v ∈ r.2) vs (drop (S p) rows) ->
  exists trail ls, steps ts x trail = Some ls /\ (fun t : link => t.1.2) <$> ls = vs /\ length trail = length vs.
Proof.
  intros Hby. induction vs as [|v vs IH]; intros p r x Hp Hx H; [by exists [], []|]. destruct (drop (S p) rows) as [|r' rest] eqn:Ed; [by inversion H|].
  apply Forall2_cons_1 in H as [Hv H]. assert (Hp' : rows !! S p = Some r').
  { rewrite <- (Nat.add_0_r (S p)), <- lookup_drop, Ed. done. }
  rewrite (drop_S _ _ _ Hp') in Ed. injection Ed as Ed. rewrite <- Ed in H. destruct (IH _ _ _ Hp' Hv H) as (trail & ls & E & Els & L).
  destruct (proj2 Hby p r x Hp Hx) as [Ef _]. rewrite Hp' in Ef. assert (Ht : (x, v, r'.1) ∈ from_ x ts) by (rewrite Ef; apply elem_of_list_fmap; eauto).
  apply elem_of_list_lookup in Ht as [i Ei]. exists (i :: trail), ((x, v, r'.1) :: ls). cbn [steps]. rewrite Ei. cbn [mbind option_bind]. cbn [fst snd]. rewrite E. cbn.
  split; [done|]. split; [by rewrite Els|by rewrite L].
Qed.

(** a choice within a layer: candidates, and which of the activations *)
Notation pick := (list nat * nat)%type.
Definition pick_ok (p : lplan) (c : pick) : Prop := length c.1 = p.1.1.1 * p.1.1.2 /\ Forall (fun j => j < p.1.2) c.1 /\ c.2 < length (act_order p.2).
Definition wval g (v : nat) : F := match g_nodes g !! v with Some n => weight_of O n | None => zero end.
Definition cand_ids (base w : nat) (c : list nat) : list nat := imap (fun q j => base + q * w + j) c.
Definition kept (top q : nat) : bool := bool_decide (q = 0) || bool_decide (top = opIndexCopy).
Definition flag_of (a : option nat) (j : nat) : nat := match a with Some f => f | None => nth j [aNone; aSigmoid; aRelu; aTanh; aLeaky; aElu] 0 end.
Definition layer_of (top : nat) g (base : nat) (p : lplan) (c : pick) : layer F :=
  Layer p.1.1.1 p.1.1.2 (imap (fun q v => if kept top q then wval g v else zero) (cand_ids base p.1.2 c.1)) (replicate p.1.1.2 zero) (flag_of p.2 c.2).
Definition pick_nodes (base : nat) (p : lplan) (c : pick) : list nat :=
  cand_ids base p.1.2 c.1 ++ [base + p.1.2 * (p.1.1.1 * p.1.1.2); base + p.1.2 * (p.1.1.1 * p.1.1.2) + 1 + c.2].
Fixpoint net (top : nat) g (base : nat) (ps : list lplan) (cs : list pick) : list (layer F) :=
  match ps, cs with p :: ps, c :: cs => layer_of top g base p c :: net top g (base + lsize p) ps cs | _, _ => [] end.
Fixpoint net_nodes (base : nat) (ps : list lplan) (cs : list pick) : list nat :=
  match ps, cs with p :: ps, c :: cs => pick_nodes base p c ++ net_nodes (base + lsize p) ps cs | _, _ => [] end.
(** the bodies of a layer at its place in the graph *)
Definition placed g (base : nat) (p : lplan) : Prop :=
  (forall q j, q < p.1.1.1 * p.1.1.2 -> j < p.1.2 -> exists n x, g_nodes g !! (base + q * p.1.2 + j) = Some n /\ o_body n = Weight p.1.1.1 p.1.1.2 q x) /\
  (exists n, g_nodes g !! (base + p.1.2 * (p.1.1.1 * p.1.1.2)) = Some n /\ o_body n = Fcl p.1.1.1 p.1.1.2) /\
  (forall j, j < length (act_order p.2) -> exists n, g_nodes g !! (base + p.1.2 * (p.1.1.1 * p.1.1.2) + 1 + j) = Some n /\ o_body n = Activation (flag_of p.2 j)).

Lemma weights_build top g base p a fcls : lok p -> placed g base p -> top = opIndexCopy \/ top = opTake -> forall n ls, n <= p.1.1.1 * p.1.1.2 -> Forall2 lands ls (wrows base p.1.2 n) ->
  exists c, length c = n /\ Forall (fun j => j < p.1.2) c /\ (fun t : link => t.1.2) <$> ls = cand_ids base p.1.2 c /\
    (0 < n -> build_all top g ls (Tracker a fcls) =
      Some (Tracker (Some (imap (fun q v => if kept top q then wval g v else zero) (cand_ids base p.1.2 c) ++ replicate (p.1.1.1 * p.1.1.2 - n) zero, replicate p.1.1.2 zero)) fcls)).
Proof.
  intros Hok (Hw & _ & _) Htop. induction n as [|n IH]; intros ls Hn HF.
  - inversion HF. exists []. repeat split; try done. lia.
  - rewrite wrows_S in HF. apply Forall2_app_inv_r in HF as (l1 & l2 & H1 & H2 & ->). apply Forall2_cons_inv_r in H2 as (t & l3 & [Ht1 Ht2] & H3 & ->). inversion H3; subst l3. clear H3.
    destruct (IH l1 ltac:(lia) H1) as (c & Lc & Fc & Ec & Eb). cbn [fst snd] in Ht1, Ht2. unfold wrow in Ht1. apply elem_of_seq in Ht1.
    set (j := t.1.2 - (base + n * p.1.2)). assert (Hj : j < p.1.2) by lia. assert (Et : t.1.2 = base + n * p.1.2 + j) by lia.
    exists (c ++ [j]). rewrite app_length. cbn [length]. split; [lia|]. split; [by apply Forall_app; split; [|constructor]|].
    assert (Ecid : cand_ids base p.1.2 (c ++ [j]) = cand_ids base p.1.2 c ++ [t.1.2]).
    { unfold cand_ids. rewrite imap_app. cbn [imap]. rewrite Nat.add_0_r, Lc, <- Et. done. }
    rewrite Ecid. split; [by rewrite fmap_app, Ec|]. intros _. rewrite build_all_app.
    destruct (Hw n j ltac:(lia) Hj) as (nd & x & En & Eb'). rewrite <- Et in En.
    assert (Ex : wval g t.1.2 = x) by (unfold wval; rewrite En; unfold weight_of; by rewrite Eb').
    rewrite imap_app. cbn [imap]. rewrite Nat.add_0_r. assert (Lci : length (cand_ids base p.1.2 c) = n) by (unfold cand_ids; by rewrite imap_length). rewrite Lci, Ex.
    rewrite <- app_assoc.
    destruct n as [|n].
    + inversion H1; subst l1. cbn [build_all mbind option_bind]. rewrite En. cbn [mbind option_bind]. rewrite Eb', Ht2. cbn [build_step]. rewrite !decide_True by done.
      destruct c; [|done]. cbn [cand_ids imap app kept]. unfold kept. rewrite bool_decide_eq_true_2 by done. cbn [orb].
      destruct (p.1.1.1 * p.1.1.2) as [|d]; [lia|]. replace (S d - 1) with d by lia. cbn [replicate]. rewrite wr_Some by (cbn; lia). cbn [mbind option_bind insert list_insert]. done.
    + rewrite (Eb ltac:(lia)). cbn [mbind option_bind build_all]. rewrite En. cbn [mbind option_bind]. rewrite Eb', Ht2. rewrite decide_False by lia. cbn [build_step].
      rewrite decide_False by lia. cbn [t_arrays t_fcls]. 
      assert (Ek : kept top (S n) = bool_decide (top = opIndexCopy)) by (unfold kept; rewrite bool_decide_eq_false_2 by lia; done). rewrite Ek.
      replace (p.1.1.1 * p.1.1.2 - S n) with (S (p.1.1.1 * p.1.1.2 - S (S n))) by lia. cbn [replicate].
      destruct Htop as [->| ->].
      * rewrite decide_True by done. rewrite bool_decide_eq_true_2 by done. cbn [mbind option_bind fst snd].
        rewrite wr_Some by (rewrite app_length, imap_length, Lci; cbn [length]; lia). cbn [mbind option_bind].
        do 4 f_equal. rewrite insert_app_r_alt by (rewrite imap_length; lia). rewrite imap_length, Lci, Nat.sub_diag. done.
      * rewrite decide_False by lia. rewrite bool_decide_eq_false_2 by lia. done.
Qed.
Lemma layer_build top g base p a fcls ls : lok p -> placed g base p -> top = opIndexCopy \/ top = opTake -> Forall2 lands ls (prows base p) ->
  exists c, pick_ok p c /\ (fun t : link => t.1.2) <$> ls = pick_nodes base p c /\ build_all top g ls (Tracker a fcls) = Some (Tracker None (fcls ++ [layer_of top g base p c])).
Proof.
  intros Hok Hpl Htop HF. unfold prows, lrows in HF. apply Forall2_app_inv_r in HF as (l1 & l2 & H1 & H2 & ->).
  apply Forall2_cons_inv_r in H2 as (t & l3 & [Ht1 Ht2] & H3 & ->). apply Forall2_cons_inv_r in H3 as (t' & l4 & [Ht1' Ht2'] & H4 & ->). inversion H4; subst l4. clear H4.
  cbn [fst snd] in *. apply elem_of_list_singleton in Ht1. apply elem_of_list_fmap in Ht1' as (j & Et' & Hj).
  destruct (weights_build top g base p a fcls Hok Hpl Htop _ l1 (le_n _) H1) as (c & Lc & Fc & Ec & Eb). destruct Hpl as (_ & (nf & Enf & Ebf) & Hact).
  assert (Hj' : j < length (act_order p.2)).
  { destruct p.2; cbn in *; repeat (apply elem_of_cons in Hj as [->|Hj]; [lia|]); by apply not_elem_of_nil in Hj. }
  destruct (Hact j Hj') as (na & Ena & Eba). exists (c, j). split; [done|]. split.
  { rewrite fmap_app, Ec. unfold pick_nodes. cbn [fmap list_fmap fst snd]. by rewrite Ht1, Et'. }
  rewrite build_all_app, Eb by apply Hok. rewrite Nat.sub_diag, app_nil_r. cbn [mbind option_bind build_all]. rewrite Ht1, Enf. cbn [mbind option_bind]. rewrite Ebf, Ht2. cbn [build_step].
  rewrite decide_True by done. cbn [t_arrays t_fcls mbind option_bind fst snd]. rewrite Et', Ena. cbn [mbind option_bind]. rewrite Eba, Ht2'. cbn [build_step].
  rewrite decide_True by done. cbn [t_fcls t_arrays]. rewrite last_snoc. cbn [mbind option_bind]. rewrite wr_Some by (rewrite app_length; cbn; lia). cbn [mbind option_bind].
  rewrite app_length. cbn [length]. rewrite Nat.add_sub. rewrite insert_app_r_alt by lia. rewrite Nat.sub_diag. done.
Qed.
Fixpoint all_placed g (base : nat) (ps : list lplan) : Prop := match ps with [] => True | p :: ps => placed g base p /\ all_placed g (base + lsize p) ps end.
Lemma net_build top g ps : top = opIndexCopy \/ top = opTake -> forall base fcls ls, Forall lok ps -> all_placed g base ps -> Forall2 lands ls (rows_all base ps) ->
  exists cs, Forall2 pick_ok ps cs /\ (fun t : link => t.1.2) <$> ls = net_nodes base ps cs /\ build_all top g ls (Tracker None fcls) = Some (Tracker None (fcls ++ net top g base ps cs)).
Proof.
  intros Htop. induction ps as [|p ps IH]; intros base fcls ls Hok Hpl HF.
  - cbn in HF. inversion HF. exists []. split; [constructor|]. split; [done|]. cbn. by rewrite app_nil_r.
  - apply list.Forall_cons in Hok as [Hp Hok]. destruct Hpl as [Hpl1 Hpl2]. cbn [rows_all] in HF. apply Forall2_app_inv_r in HF as (l1 & l2 & H1 & H2 & ->).
    destruct (layer_build top g base p None fcls l1 Hp Hpl1 Htop H1) as (c & Hc & En & Eb). destruct (IH _ (fcls ++ [layer_of top g base p c]) _ Hok Hpl2 H2) as (cs & Hcs & Ens & Ebs).
    exists (c :: cs). split; [by constructor|]. split; [cbn [net_nodes]; by rewrite fmap_app, En, Ens|]. rewrite build_all_app, Eb. cbn [mbind option_bind]. rewrite Ebs.
    cbn [net]. by rewrite <- app_assoc.
Qed.
Lemma net_nodes_rows ps : forall base cs, Forall2 pick_ok ps cs -> Forall2 (fun v (r : nat * list nat) => v ∈ r.2) (net_nodes base ps cs) (rows_all base ps).
Proof.
  induction ps as [|p ps IH]; intros base cs H; inversion H as [|? c ? cs' Hc Hcs]; subst; [constructor|]. cbn [net_nodes rows_all]. apply Forall2_app; [|by apply IH].
  destruct Hc as (L & Fc & Hj). unfold pick_nodes, prows, lrows. apply Forall2_app.
  - apply Forall2_same_length_lookup_2. { unfold cand_ids, wrows. rewrite imap_length, fmap_length, seq_length. done. }
    intros q v r. unfold cand_ids, wrows. rewrite list_lookup_imap, list_lookup_fmap. destruct (c.1 !! q) as [j|] eqn:Ej; [|done]. cbn. intros E; injection E as <-.
    assert (Hq : q < p.1.1.1 * p.1.1.2) by (apply lookup_lt_Some in Ej; lia). rewrite lookup_seq_lt by done. cbn. intros E; injection E as <-. cbn. unfold wrow.
    apply elem_of_seq. rewrite list.Forall_forall in Fc. specialize (Fc j (elem_of_list_lookup_2 _ _ _ Ej)). lia.
  - constructor; [by apply elem_of_list_singleton|]. constructor; [|constructor]. cbn [snd]. apply elem_of_list_fmap. exists c.2. split; [done|].
    destruct p.2; cbn in *; [assert (c.2 = 0) as -> by lia; left|]. destruct c.2 as [|[|[|[|[|[|]]]]]]; try lia; set_solver.
Qed.
Lemma cand_ids_inj base w c c' : cand_ids base w c = cand_ids base w c' -> c = c'.
Proof.
  intros E. apply list_eq. intros q. apply (f_equal (fun l => l !! q)) in E. unfold cand_ids in E. rewrite !list_lookup_imap in E.
  destruct (c !! q), (c' !! q); cbn in E; try done. injection E as E. f_equal. lia.
Qed.
Lemma net_nodes_inj ps : forall base cs cs', Forall2 pick_ok ps cs -> Forall2 pick_ok ps cs' -> net_nodes base ps cs = net_nodes base ps cs' -> cs = cs'.
Proof.
  induction ps as [|p ps IH]; intros base cs cs' H H' E; inversion H as [|? c ? cs1 Hc Hcs]; inversion H' as [|? c' ? cs1' Hc' Hcs']; subst; [done|].
  cbn [net_nodes] in E. apply app_inj_1 in E as [E1 E2].
  - f_equal; [|by eapply IH]. unfold pick_nodes in E1. apply app_inj_1 in E1 as [E1 E3].
    + apply cand_ids_inj in E1. injection E3 as E3. destruct c, c'; cbn in *. f_equal; [done|lia].
    + unfold cand_ids. rewrite !imap_length. destruct Hc as [-> _], Hc' as [-> _]. done.
  - unfold pick_nodes, cand_ids. rewrite !app_length, !imap_length. destruct Hc as [-> _], Hc' as [-> _]. done.
Qed.
End build.
