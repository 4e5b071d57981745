(** Proofs about the normalization of scores *)
From Verif Require Import NumLib BaseLemmas Mms_Model Mms_Spec.
From Coq Require Import Reals Lia Lra.
Notation vec := (list R).
Open Scope nat_scope.

Lemma search_layer_ok l s mm : scores l = Some s -> length s = weights l -> search_layer l mm = Some (foldl widen mm s).
Proof.
  intros Es Ls. unfold search_layer. destruct (for_loop_inv (λ i st, st = foldl widen mm (take i s)) (λ j mm, x ← score l j; Some (widen mm x)) (weights l) 0 mm) as (st & -> & ->).
  - done.
  - intros i st Hi ->. unfold score. rewrite Es. cbn [mbind option_bind]. destruct (lookup_lt_is_Some_2 s i) as [x Ex]; [lia|]. unfold rd. rewrite Ex. cbn [mbind option_bind]. eexists. split; [done|]. rewrite (take_S_r _ _ _ Ex), foldl_app. done.
  - cbn. rewrite take_ge by lia. done.
Qed.
Lemma search_layers_ok ls : ∀ mm, Forall scored ls -> search_layers ls mm = Some (foldl widen mm (concat (map scores_of ls))).
Proof.
  induction ls as [|l ls IH]; intros mm H; [done|]. apply list.Forall_cons in H as [(_ & s & Es & Ls) H]. cbn [search_layers map concat]. rewrite (search_layer_ok l s mm Es Ls). cbn [mbind option_bind]. rewrite IH by done. rewrite foldl_app. unfold scores_of at 2. by rewrite Es.
Qed.
Lemma search_rls_ok rs : ∀ mm, Forall scored (concat rs) -> search_rls rs mm = Some (foldl widen mm (concat (map scores_of (concat rs)))).
Proof.
  induction rs as [|r rs IH]; intros mm H; [done|]. cbn [search_rls concat] in *. apply Forall_app in H as [H1 H2]. rewrite search_layers_ok by done. cbn [mbind option_bind]. rewrite IH by done. by rewrite map_app, concat_app, foldl_app.
Qed.
Lemma widen_ok l : ∀ mm, let r := foldl widen mm l in (r.1 <= mm.1)%R /\ (mm.2 <= r.2)%R /\ (∀ x, x ∈ l -> r.1 <= x <= r.2)%R /\ (r.1 = mm.1 \/ r.1 ∈ l) /\ (r.2 = mm.2 \/ r.2 ∈ l).
Proof.
  induction l as [|x l IH]; intros mm; cbn [foldl]; cbv zeta.
  - split; [lra|]. split; [lra|]. split; [intros x H; by apply elem_of_nil in H|]. split; by left.
  - destruct (IH (widen mm x)) as (H1 & H2 & H3 & H4 & H5). set (r := foldl widen (widen mm x) l) in *. unfold widen in H1, H2, H4, H5. cbn [fst snd] in *.
    split; [destruct (decide (x < mm.1)%R); lra|]. split; [destruct (decide (x > mm.2)%R); lra|]. split.
    { intros y Hy. apply elem_of_cons in Hy as [->|Hy]; [|by apply H3]. destruct (decide (x < mm.1)%R), (decide (x > mm.2)%R); lra. }
    split.
    + destruct H4 as [H4|H4]; [|right; by apply elem_of_list_further]. destruct (decide (x < mm.1)%R); [right; rewrite H4; apply elem_of_list_here|by left].
    + destruct H5 as [H5|H5]; [|right; by apply elem_of_list_further]. destruct (decide (x > mm.2)%R); [right; rewrite H5; apply elem_of_list_here|by left].
Qed.
Lemma widen_extremes l hi0 lo0 : l <> [] -> (∀ x, x ∈ l -> lo0 <= x <= hi0)%R -> let r := foldl widen (hi0, lo0) l in extremes l r.1 r.2.
Proof.
  intros Hne Hb. destruct (widen_ok l (hi0, lo0)) as (H1 & H2 & H3 & H4 & H5). set (r := foldl widen (hi0, lo0) l) in *. cbv zeta. cbn [fst snd] in *.
  assert (Hx : ∃ x, x ∈ l) by (destruct l as [|x l]; [done|]; exists x; apply elem_of_list_here). destruct Hx as [x Hx]. pose proof (Hb x Hx). pose proof (H3 x Hx). split; [|split; [|done]].
  - destruct H4 as [H4|]; [|done]. replace r.1 with x by lra. done.
  - destruct H5 as [H5|]; [|done]. replace r.2 with x by lra. done.
Qed.
Lemma scale_loop mx mn s n : mx <> mn -> length s = n -> for_loop n 0 (λ i s, x ← rd s i; y ← scaled mx mn x; wr s i y) s = Some (map (unit_map mn mx) s).
Proof.
  intros Hne Ls. destruct (for_loop_inv (λ i (st : vec), st = map (unit_map mn mx) (take i s) ++ drop i s) (λ i s, x ← rd s i; y ← scaled mx mn x; wr s i y) n 0 s) as (st & -> & ->).
  - done.
  - intros i st Hi ->. destruct (lookup_lt_is_Some_2 s i) as [x Ex]; [lia|]. assert (Lt : length (map (unit_map mn mx) (take i s)) = i) by (rewrite map_length, take_length; lia).
    rewrite (drop_S _ _ _ Ex). unfold rd. rewrite list_lookup_middle by done. cbn [mbind option_bind]. unfold scaled. rewrite decide_False by lra. cbn [mbind option_bind].
    rewrite wr_Some by (rewrite app_length; cbn; lia). eexists. split; [done|]. rewrite (take_S_r _ _ _ Ex), map_app, <- app_assoc. cbn [map app]. rewrite insert_app_r_alt by lia. by rewrite Lt, Nat.sub_diag.
  - cbn. rewrite take_ge, drop_ge, app_nil_r by lia. done.
Qed.
Lemma given_ok mx mn l : mx <> mn -> scored l -> ∃ l', given_max_min_normalize mx mn l = Some l' /\ rescaled (unit_map mn mx) l l'.
Proof.
  intros Hne (Hu & s & Es & Ls). unfold given_max_min_normalize. rewrite Hu. unfold scale_scores. destruct (decide (weights l = 0)) as [Hz|Hz].
  - exists l. split; [done|]. split; [done|]. split; [done|]. unfold scores_of. rewrite Es. cbn. assert (s = []) as -> by (destruct s; [done|cbn in Ls; lia]). done.
  - rewrite Es. cbn [mbind option_bind]. rewrite scale_loop by done. cbn [mbind option_bind]. eexists. split; [done|]. split; [done|]. split; [done|]. unfold scores_of. by rewrite Es.
Qed.
Lemma mapM_F2 {A B} (f : A -> option B) (P : A -> B -> Prop) l : Forall (λ x, ∃ y, f x = Some y /\ P x y) l -> ∃ l', mapM f l = Some l' /\ Forall2 P l l'.
Proof.
  induction 1 as [|x l (y & E & Hy) H IH]; [exists []; by split|]. destruct IH as (l' & E' & H'). exists (y :: l'). split; [|by constructor]. cbn. rewrite E. cbn. rewrite E'. done.
Qed.
Lemma Forall_concat {A} (P : A -> Prop) ls : Forall P (concat ls) -> Forall (Forall P) ls.
Proof. induction ls as [|l ls IH]; intros H; [done|]. cbn in H. apply Forall_app in H as [H1 H2]. apply list.Forall_cons. split; [done|by apply IH]. Qed.
Lemma everywhere_ok (f : layer -> option layer) (P : layer -> layer -> Prop) m : Forall (λ l, ∃ l', f l = Some l' /\ P l l') (layers m) ->
  ∃ a b c, mapM f (fcls m) = Some a /\ mapM f (cls m) = Some b /\ mapM (mapM f) (rls m) = Some c /\ everywhere P m {| fcls := a; cls := b; rls := c |}.
Proof.
  intros H. unfold layers in H. apply Forall_app in H as [H1 H]. apply Forall_app in H as [H2 H3]. destruct (mapM_F2 f P _ H1) as (a & Ea & Ha). destruct (mapM_F2 f P _ H2) as (b & Eb & Hb).
  destruct (mapM_F2 (mapM f) (Forall2 P) (rls m)) as (c & Ec & Hc); [|exists a, b, c; done]. apply Forall_concat in H3. eapply list.Forall_impl; [exact H3|]. intros r Hr. by apply mapM_F2.
Qed.
Lemma layers_rescaled g m m' : everywhere (rescaled g) m m' -> Forall2 (rescaled g) (layers m) (layers m').
Proof.
  intros (H1 & H2 & H3). unfold layers. apply Forall2_app; [done|]. apply Forall2_app; [done|]. induction H3 as [|r r' rs rs' Hr H3 IH]; [constructor|]. cbn. by apply Forall2_app.
Qed.
Lemma all_rescaled g m m' : everywhere (rescaled g) m m' -> all_scores m' = map g (all_scores m).
Proof.
  intros H. apply layers_rescaled in H. unfold all_scores. induction H as [|l l' ls ls' (_ & _ & E) H IH]; [done|]. cbn [map concat]. rewrite IH, map_app. f_equal. unfold scores_of at 1. by rewrite E.
Qed.
Lemma unit_range lo hi x : (lo < hi)%R -> (lo <= x <= hi)%R -> (0 <= unit_map lo hi x <= 1)%R.
Proof.
  intros H Hx. unfold unit_map. split; [apply Rmult_le_pos; [lra|apply Rlt_le, Rinv_0_lt_compat; lra]|]. apply (Rmult_le_reg_r (hi - lo)); [lra|]. unfold Rdiv. rewrite Rmult_assoc, Rinv_l by lra. lra.
Qed.
Lemma unit_mono lo hi x y : (lo < hi)%R -> (x < y <-> unit_map lo hi x < unit_map lo hi y)%R.
Proof.
  intros H. unfold unit_map, Rdiv. assert (Hp : (0 < / (hi - lo))%R) by (apply Rinv_0_lt_compat; lra). split; intros Hxy; [apply Rmult_lt_compat_r; [done|lra]|]. apply Rmult_lt_reg_r in Hxy; [lra|done].
Qed.
Lemma unit_lo lo hi : unit_map lo hi lo = 0%R.
Proof. unfold unit_map, Rdiv. ring. Qed.
Lemma unit_hi lo hi : (lo < hi)%R -> unit_map lo hi hi = 1%R.
Proof. intros H. unfold unit_map. field. lra. Qed.
Lemma search_all m mm : Forall scored (layers m) -> (mm ← search_layers (fcls m) mm; mm ← search_layers (cls m) mm; search_rls (rls m) mm) = Some (foldl widen mm (all_scores m)).
Proof.
  intros H. unfold layers in H. apply Forall_app in H as [H1 H]. apply Forall_app in H as [H2 H3]. rewrite search_layers_ok by done. cbn [mbind option_bind]. rewrite search_layers_ok by done. cbn [mbind option_bind]. rewrite search_rls_ok by done.
  unfold all_scores, layers. by rewrite !map_app, !concat_app, !foldl_app.
Qed.
Definition rest (m : model) (mm : R * R) : option model :=
  f ← mapM (given_max_min_normalize mm.2 mm.1) (fcls m); c ← mapM (given_max_min_normalize mm.2 mm.1) (cls m); r ← mapM (mapM (given_max_min_normalize mm.2 mm.1)) (rls m); Some {| fcls := f; cls := c; rls := r |}.
Lemma min_max_search m : Forall scored (layers m) -> min_max_normalize m = rest m (foldl widen (9999999, -9999999)%R (all_scores m)).
Proof.
  intros H. pose proof (search_all m (9999999, -9999999)%R H) as E. unfold min_max_normalize. destruct (search_layers (fcls m) _) as [mm|]; [|done]. cbn [mbind option_bind] in *. destruct (search_layers (cls m) mm) as [mm'|]; [|done]. cbn [mbind option_bind] in *. rewrite E. done.
Qed.
Lemma rest_ok m mn mx : mx <> mn -> Forall scored (layers m) -> ∃ m', rest m (mn, mx) = Some m' /\ everywhere (rescaled (unit_map mn mx)) m m'.
Proof.
  intros Hne H. destruct (everywhere_ok (given_max_min_normalize mx mn) (rescaled (unit_map mn mx)) m) as (a & b & c & E1 & E2 & E3 & H4); [eapply list.Forall_impl; [exact H|]; intros l Hl; by apply given_ok|].
  unfold rest. cbn [fst snd]. rewrite E1. cbn [mbind option_bind]. rewrite E2. cbn [mbind option_bind]. rewrite E3. cbn [mbind option_bind]. by eexists.
Qed.
Lemma mapM_none {A B} (f : A -> option B) l x : x ∈ l -> f x = None -> mapM f l = None.
Proof. induction l as [|y l IH]; intros Hx E; [by apply elem_of_nil in Hx|]. cbn. apply elem_of_cons in Hx as [<-|Hx]; [by rewrite E|]. destruct (f y); [|done]. cbn. by rewrite IH. Qed.
Lemma given_equal mx l : scored l -> weights l <> 0 -> given_max_min_normalize mx mx l = None.
Proof.
  intros (Hu & s & Es & Ls) Hw. unfold given_max_min_normalize. rewrite Hu. unfold scale_scores. rewrite decide_False by done. rewrite Es. cbn [mbind option_bind]. destruct (weights l) as [|n]; [done|]. cbn [for_loop]. destruct s as [|x s]; [done|]. cbn [rd lookup list_lookup mbind option_bind]. unfold scaled. rewrite decide_True by lra. done.
Qed.
Lemma rest_equal m mx l : Forall scored (layers m) -> l ∈ layers m -> weights l <> 0 -> rest m (mx, mx) = None.
Proof.
  intros H Hl Hw. assert (Hs : scored l) by (rewrite list.Forall_forall in H; by apply H). pose proof (given_equal mx l Hs Hw) as E. unfold rest. cbn [fst snd]. unfold layers in Hl. apply elem_of_app in Hl as [Hl|Hl].
  - by rewrite (mapM_none _ _ _ Hl E).
  - destruct (mapM _ (fcls m)); [|done]. cbn [mbind option_bind]. apply elem_of_app in Hl as [Hl|Hl].
    + by rewrite (mapM_none _ _ _ Hl E).
    + destruct (mapM _ (cls m)); [|done]. cbn [mbind option_bind]. assert (Hr : ∃ r, r ∈ rls m /\ l ∈ r). { clear -Hl. induction (rls m) as [|r rs IH]; [by apply elem_of_nil in Hl|]. cbn in Hl. apply elem_of_app in Hl as [Hl|Hl]; [exists r; split; [apply elem_of_list_here|done]|]. destruct (IH Hl) as (r' & H1 & H2). exists r'. split; [by apply elem_of_list_further|done]. }
      destruct Hr as (r & Hr & Hlr). by rewrite (mapM_none _ _ r Hr (mapM_none _ _ _ Hlr E)).
Qed.
(** NULL scores *)
Lemma search_layer_null l mm : scores l = None -> weights l <> 0 -> search_layer l mm = None.
Proof. intros E H. unfold search_layer. destruct (weights l) as [|n]; [done|]. cbn [for_loop]. unfold score. by rewrite E. Qed.
Lemma search_layers_null l ls : ∀ mm, l ∈ ls -> scores l = None -> weights l <> 0 -> search_layers ls mm = None.
Proof.
  induction ls as [|k ls IH]; intros mm Hl E H; [by apply elem_of_nil in Hl|]. cbn [search_layers]. apply elem_of_cons in Hl as [<-|Hl]; [by rewrite search_layer_null|]. destruct (search_layer k mm); [|done]. cbn. by apply IH.
Qed.
Lemma search_rls_null l rs : ∀ mm, l ∈ concat rs -> scores l = None -> weights l <> 0 -> search_rls rs mm = None.
Proof.
  induction rs as [|r rs IH]; intros mm Hl E H; [by apply elem_of_nil in Hl|]. cbn [search_rls concat] in *. apply elem_of_app in Hl as [Hl|Hl]; [by rewrite (search_layers_null l)|]. destruct (search_layers r mm); [|done]. cbn. by apply IH.
Qed.
Lemma min_max_null m l : l ∈ layers m -> scores l = None -> weights l <> 0 -> min_max_normalize m = None.
Proof.
  intros Hl E H. unfold min_max_normalize. unfold layers in Hl. apply elem_of_app in Hl as [Hl|Hl]; [by rewrite (search_layers_null l)|]. destruct (search_layers (fcls m) _) as [mm|]; [|done]. cbn [mbind option_bind].
  apply elem_of_app in Hl as [Hl|Hl]; [by rewrite (search_layers_null l)|]. destruct (search_layers (cls m) mm) as [mm'|]; [|done]. cbn [mbind option_bind]. by rewrite (search_rls_null l).
Qed.
Lemma normalize_layer_ok l : scored l -> (∀ x, x ∈ scores_of l -> -99999999 <= x <= 999999999)%R -> (∃ x y, x ∈ scores_of l /\ y ∈ scores_of l /\ x <> y) ->
  ∃ l' lo hi, normalize_layer l = Some l' /\ extremes (scores_of l) lo hi /\ (lo < hi)%R /\ rescaled (unit_map lo hi) l l'.
Proof.
  intros Hs Hb (x & y & Hx & Hy & Hne). pose proof Hs as (Hu & s & Es & Ls). unfold normalize_layer. rewrite Hu. rewrite (search_layer_ok l s _ Es Ls). cbn [mbind option_bind]. assert (E : scores_of l = s) by (unfold scores_of; by rewrite Es). rewrite E in *.
  pose proof (widen_extremes s 999999999 (-99999999) ltac:(by intros ->; apply elem_of_nil in Hx) Hb) as He. cbv zeta in He. set (mm := foldl widen _ s) in *. destruct He as (H1 & H2 & H3).
  assert (Hlt : (mm.1 < mm.2)%R). { pose proof (H3 x Hx). pose proof (H3 y Hy). destruct (Rlt_le_dec mm.1 mm.2) as [|]; [done|]. exfalso. apply Hne. lra. }
  destruct (given_ok mm.2 mm.1 l ltac:(lra) Hs) as (l' & El & Hr). unfold given_max_min_normalize in El. rewrite Hu in El. exists l', mm.1, mm.2. by split.
Qed.
