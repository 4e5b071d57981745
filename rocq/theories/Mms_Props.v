(** C79: normalizing the edge-popup scores of a whole model to the range from 0 to 1 *)
From Verif Require Import NumLib BaseLemmas Mms_Model Mms_Spec Mms_Proofs.
From Coq Require Import Reals Lia Lra.
Notation vec := (list R).
Open Scope nat_scope.

(** a model of four layers: one fully-connected, one convolutional, and a residual layer with two convolutional ones *)
Definition lay (s : vec) : layer := {| scores := Some s; weights := length s; unweighted := false |}.
Definition four : model := {| fcls := [lay [1; 5]%R]; cls := [lay [3; 3]%R]; rls := [[lay [2]%R; lay [9; 4]%R]] |}.
Lemma four_scored : Forall scored (layers four).
Proof. repeat (apply list.Forall_cons; split); try done; (split; [done|]); eexists; (split; [done|]); done. Qed.

(** With a score for every weight, scores in the range of the two initial values and two different scores, the normalization over all layers succeeds:
    one affine map that takes the least score of the model to 0 and the greatest to 1 is applied to each score of each layer, nothing else changes.  So all scores lie in the range from 0 to 1, both ends occur, and the order of any two scores, also of different layers, is kept.  *)
Theorem C79_all_layers : ∀ m, Forall scored (layers m) -> (∀ x, x ∈ all_scores m -> -9999999 <= x <= 9999999)%R -> (∃ x y, x ∈ all_scores m /\ y ∈ all_scores m /\ x <> y) ->
  ∃ m' lo hi, min_max_normalize m = Some m' /\ extremes (all_scores m) lo hi /\ (lo < hi)%R /\ everywhere (rescaled (unit_map lo hi)) m m' /\
    all_scores m' = map (unit_map lo hi) (all_scores m) /\ (∀ x, x ∈ all_scores m' -> 0 <= x <= 1)%R /\ 0%R ∈ all_scores m' /\ 1%R ∈ all_scores m' /\
    (∀ x y, x < y <-> unit_map lo hi x < unit_map lo hi y)%R.
Proof.
  intros m H Hb (x & y & Hx & Hy & Hne). rewrite min_max_search by done.
  pose proof (widen_extremes (all_scores m) 9999999 (-9999999) ltac:(by intros E; rewrite E in Hx; apply elem_of_nil in Hx) Hb) as He. cbv zeta in He. set (mm := foldl widen _ (all_scores m)) in *. clearbody mm. destruct mm as [lo hi]. cbn [fst snd] in He. pose proof He as (H1 & H2 & H3).
  assert (Hlt : (lo < hi)%R). { pose proof (H3 x Hx). pose proof (H3 y Hy). destruct (Rlt_le_dec lo hi) as [|]; [done|]. exfalso. apply Hne. lra. }
  destruct (rest_ok m lo hi ltac:(lra) H) as (m' & E & Hm). exists m', lo, hi. pose proof (all_rescaled _ _ _ Hm) as Ea. split; [done|]. split; [done|]. split; [done|]. split; [done|]. split; [done|]. rewrite Ea. split; [|split; [|split]].
  - intros z Hz. apply elem_of_list_fmap in Hz as (w & -> & Hw). apply unit_range; [done|by apply H3].
  - apply elem_of_list_fmap. exists lo. split; [symmetry; apply unit_lo|done].
  - apply elem_of_list_fmap. exists hi. split; [symmetry; by apply unit_hi|done].
  - intros. by apply unit_mono.
Qed.
Print Assumptions C79_all_layers.
Example C79_all_layers_case : ∃ m', min_max_normalize four = Some m' /\ all_scores m' = [0; 1 / 2; 1 / 4; 1 / 4; 1 / 8; 1; 3 / 8]%R.
Proof.
  assert (Ha : ∀ x, x ∈ all_scores four -> (1 <= x <= 9)%R). { intros x Hx. cbn in Hx. repeat (apply elem_of_cons in Hx as [->|Hx]; [lra|]). by apply elem_of_nil in Hx. }
  destruct (C79_all_layers four four_scored) as (m' & lo & hi & E & (H1 & H2 & H3) & _ & _ & Em & _).
  - intros x Hx. specialize (Ha x Hx). lra.
  - exists 1%R, 5%R. split; [apply elem_of_list_here|]. split; [apply elem_of_list_further, elem_of_list_here|lra].
  - exists m'. split; [done|]. assert (lo = 1%R) as ->. { pose proof (Ha lo H1). pose proof (H3 1%R ltac:(apply elem_of_list_here)). lra. } assert (hi = 9%R) as ->. { pose proof (Ha hi H2). assert (H9 : 9%R ∈ all_scores four) by (apply elem_of_list_lookup; by exists 5). pose proof (H3 9%R H9). lra. }
    rewrite Em. unfold unit_map. cbn. repeat (f_equal; [lra|]). f_equal. lra.
Qed.

(** If all scores are equal, as after a reset of the scores, every score becomes the quotient of 0 by 0.  *)
Theorem C79_equal_scores_refuted : ∀ m c, Forall scored (layers m) -> all_scores m <> [] -> (-9999999 <= c <= 9999999)%R -> (∀ x, x ∈ all_scores m -> x = c) -> min_max_normalize m = None.
Proof.
  intros m c H Hne Hc Hx. rewrite min_max_search by done. pose proof (widen_extremes (all_scores m) 9999999 (-9999999) Hne ltac:(intros x Hxx; rewrite (Hx x Hxx); lra)) as (H1 & H2 & _). apply Hx in H1, H2.
  destruct (foldl widen _ _) as [lo hi]. cbn in H1, H2. subst. assert (Hl : ∃ l, l ∈ layers m /\ weights l <> 0).
  { clear Hx. unfold all_scores in Hne. induction H as [|l ls (_ & s & Es & Ls) H IH]; [done|]. cbn in Hne. destruct (decide (weights l = 0)) as [Hz|Hz]; [|exists l; split; [apply elem_of_list_here|done]].
    assert (scores_of l = []) as El by (unfold scores_of; rewrite Es; destruct s; [done|cbn in Ls; lia]). rewrite El in Hne. destruct (IH Hne) as (k & H1 & H2). exists k. split; [by apply elem_of_list_further|done]. }
  destruct Hl as (l & Hl & Hw). by eapply rest_equal.
Qed.
Print Assumptions C79_equal_scores_refuted.
Example C79_equal_scores_case : min_max_normalize {| fcls := [lay [0; 0]%R]; cls := []; rls := [[lay [0]%R]] |} = None.
Proof.
  apply (C79_equal_scores_refuted _ 0%R); [|done|lra|].
  - repeat (apply list.Forall_cons; split); try done; (split; [done|]); eexists; (split; [done|]); done.
  - intros x Hx. cbn in Hx. repeat (apply elem_of_cons in Hx as [->|Hx]; [done|]). by apply elem_of_nil in Hx.
Qed.

(** A layer that only drops outputs or only pools has weight counts but no scores: the search for the extremes reads its NULL array, wherever the layer is, although the functions that change the scores skip such layers.  *)
Theorem C79_layer_without_scores_refuted : ∀ m l, l ∈ layers m -> scores l = None -> weights l <> 0 -> min_max_normalize m = None.
Proof. intros. by eapply min_max_null. Qed.
Print Assumptions C79_layer_without_scores_refuted.
Example C79_layer_without_scores_case : min_max_normalize {| fcls := [lay [1; 2]%R; {| scores := None; weights := 6; unweighted := true |}]; cls := []; rls := [] |} = None /\
  ∃ l, normalize_layer {| scores := None; weights := 6; unweighted := true |} = Some l.
Proof. split; [|by eexists]. eapply C79_layer_without_scores_refuted; [apply elem_of_list_further, elem_of_list_here|done|done]. Qed.

(** Scores above the initial value of the minimum: the minimum is not found, and no score becomes 0.  *)
Theorem C79_large_scores_refuted : ∀ m, Forall scored (layers m) -> all_scores m <> [] -> (∀ x, x ∈ all_scores m -> 9999999 < x)%R -> ∃ m', min_max_normalize m = Some m' /\ length (all_scores m') = length (all_scores m) /\ ∀ x, x ∈ all_scores m' -> (0 < x)%R.
Proof.
  intros m H Hne Hx. rewrite min_max_search by done. destruct (widen_ok (all_scores m) (9999999, -9999999)%R) as (H1 & H2 & H3 & H4 & _). destruct (foldl widen _ _) as [lo hi]. cbn [fst snd] in *.
  assert (lo = 9999999%R) as -> by (destruct H4 as [|H4]; [done|]; apply Hx in H4; lra). assert (Hy : ∃ y, y ∈ all_scores m) by (destruct (all_scores m) as [|y l]; [done|]; exists y; apply elem_of_list_here). destruct Hy as [y Hy]. pose proof (Hx y Hy). pose proof (H3 y Hy).
  destruct (rest_ok m 9999999 hi ltac:(lra) H) as (m' & E & Hm). exists m'. split; [done|]. rewrite (all_rescaled _ _ _ Hm). split; [apply map_length|]. intros x Hz. apply elem_of_list_fmap in Hz as (w & -> & Hw). specialize (Hx w Hw). unfold unit_map. apply Rdiv_lt_0_compat; lra.
Qed.
Print Assumptions C79_large_scores_refuted.
Example C79_large_scores_case : ∃ m', min_max_normalize {| fcls := [lay [10000000; 20000000]%R]; cls := []; rls := [] |} = Some m' /\ length (all_scores m') = 2 /\ ∀ x, x ∈ all_scores m' -> (0 < x)%R.
Proof.
  apply C79_large_scores_refuted; [|done|].
  - unfold layers. cbn [ fcls cls rls app concat]. repeat (apply list.Forall_cons; split); try done; (split; [done|]); eexists; (split; [done|]); done.
  - intros x Hx. cbn in Hx. repeat (apply elem_of_cons in Hx as [->|Hx]; [lra|]). by apply elem_of_nil in Hx.
Qed.

(** The normalization within layers: layers without scores are left alone, and each other layer gets its own map, from its own least and greatest score to 0 and 1.  *)
Theorem C79_within_layers : ∀ m, (∀ l, l ∈ layers m -> unweighted l = false -> scored l /\ (∀ x, x ∈ scores_of l -> -99999999 <= x <= 999999999)%R /\ ∃ x y, x ∈ scores_of l /\ y ∈ scores_of l /\ x <> y) ->
  ∃ m', normalize_internal m = Some m' /\ everywhere (λ l l', if unweighted l then l' = l else ∃ lo hi, extremes (scores_of l) lo hi /\ (lo < hi)%R /\ rescaled (unit_map lo hi) l l') m m'.
Proof.
  intros m H. destruct (everywhere_ok normalize_layer (λ l l', if unweighted l then l' = l else ∃ lo hi, extremes (scores_of l) lo hi /\ (lo < hi)%R /\ rescaled (unit_map lo hi) l l') m) as (a & b & c & E1 & E2 & E3 & H4).
  - apply list.Forall_forall. intros l Hl. destruct (unweighted l) eqn:Hu; [exists l; split; [|done]; unfold normalize_layer; by rewrite Hu|]. destruct (H l Hl Hu) as (Hs & Hb & Hd). destruct (normalize_layer_ok l Hs Hb Hd) as (l' & lo & hi & E & He & Hlt & Hr). exists l'. split; [done|]. by exists lo, hi.
  - unfold normalize_internal. rewrite E1. cbn [mbind option_bind]. rewrite E2. cbn [mbind option_bind]. rewrite E3. cbn [mbind option_bind]. by eexists.
Qed.
Print Assumptions C79_within_layers.
Example C79_within_layers_case : ∃ m', normalize_internal {| fcls := [lay [1; 5]%R; {| scores := None; weights := 6; unweighted := true |}]; cls := []; rls := [[lay [7; 3]%R]] |} = Some m' /\ length (rls m') = 1 /\ fcls m' !! 1 = Some {| scores := None; weights := 6; unweighted := true |}.
Proof.
  destruct (C79_within_layers {| fcls := [lay [1; 5]%R; {| scores := None; weights := 6; unweighted := true |}]; cls := []; rls := [[lay [7; 3]%R]] |}) as (m' & E & H1 & _ & H3).
  - intros l Hl Hu. cbn in Hl. apply elem_of_cons in Hl as [->|Hl]; [|apply elem_of_cons in Hl as [->|Hl]; [done|apply elem_of_cons in Hl as [->|Hl]; [|by apply elem_of_nil in Hl]]].
    + split; [split; [done|]; eexists; by split|]. split; [intros x Hx; cbn in Hx; repeat (apply elem_of_cons in Hx as [->|Hx]; [lra|]); by apply elem_of_nil in Hx|]. exists 1%R, 5%R. split; [apply elem_of_list_here|]. split; [apply elem_of_list_further, elem_of_list_here|lra].
    + split; [split; [done|]; eexists; by split|]. split; [intros x Hx; cbn in Hx; repeat (apply elem_of_cons in Hx as [->|Hx]; [lra|]); by apply elem_of_nil in Hx|]. exists 7%R, 3%R. split; [apply elem_of_list_here|]. split; [apply elem_of_list_further, elem_of_list_here|lra].
  - exists m'. split; [done|]. split; [by apply Forall2_length in H3|]. cbn [fcls] in H1. inversion H1 as [|? ? ? ? _ H2]; subst. inversion H2 as [|? ? ? ? E2 _]; subst. cbn in E2. subst. done.
Qed.
