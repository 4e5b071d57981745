From Coq Require Import Reals Lra.
From Verif Require Import Base BaseLemmas Shuffle_Model Shuffle_Spec Sort_Model Sort_Proofs Neat_Model Neat_Spec Neat_Proofs Tidy_Proofs.
From Verif Require Import Species_Model Species_Spec Species_Proofs Species2_Proofs Gen_Model Gen_Spec Gen_Proofs Gen2_Proofs.
Open Scope nat_scope.

(** ** The counters of the species do not matter *)

Definition agree (st st' : breeding) : Prop :=
  Forall2 like (b_species st) (b_species st') /\ b_globals st = b_globals st' /\ b_gg st = b_gg st' /\
  b_champions st = b_champions st' /\ b_a st = b_a st'.

Lemma like_refl s : like s s.
Proof. done. Qed.

Lemma breed_species_agree c lk n b st st1 s s1 st' :
  agree st st1 -> like s s1 -> breed_species c lk n b st s = Some st' ->
  exists st1', breed_species c lk n b st1 s1 = Some st1' /\ agree st' st1'.
Proof.
  intros (A1 & A2 & A3 & A4 & A5) (L1 & L2 & L3 & L4) E. unfold breed_species in *. rewrite <- A5, L1, L2, <- A2, <- A3, <- A4, <- (Forall2_length _ _ _ A1).
  destruct (relative (b_a st) b) as [a b']. destruct (sort_by_fitness (s_members s)) as [ms|]; cbn [mbind option_bind] in *; [|done].
  case_decide.
  - destruct (rd ms 0) as [m0|]; cbn [mbind option_bind] in *; [|done].
    match goal with |- context [if Rle_dec a b' then ?A else ?B] => destruct (if Rle_dec a b' then A else B) as [ch|]; cbn [mbind option_bind] in *; [|done] end.
    match goal with |- context [breed ?f c lk ?r ms ?T ?st ?z ?s] => destruct (breed f c lk r ms T st z s) as [r0|]; cbn [mbind option_bind] in *; [|done] end.
    apply (inj Some) in E. subst st'. eexists. split; [done|]. split; [|done]. cbn. apply Forall2_app; [done|]. constructor; [|constructor].
    split; [done|]. split; [done|]. split; [done|]. cbn. done.
  - apply (inj Some) in E. subst st'. eexists. split; [done|]. split; [|done]. cbn. apply Forall2_app; [done|]. by constructor; [|constructor].
Qed.

Lemma breed_all_agree c lk n F l : forall l1 st st1 st',
  agree st st1 -> Forall2 like l l1 -> (forall s s1, like s s1 -> F s1 = F s) ->
  each (fun st s => breed_species c lk n (F s) st s) l st = Some st' ->
  exists st1', each (fun st s => breed_species c lk n (F s) st s) l1 st1 = Some st1' /\ agree st' st1'.
Proof.
  induction l as [|s l IH]; intros l1 st st1 st' Ha Hl HF E; inversion Hl as [|? s1 ? l1' Hs Hl']; subst.
  - cbn in *. apply (inj Some) in E. subst. by exists st1.
  - cbn [each] in *. apply bind_Some in E as (st2 & E & E').
    destruct (breed_species_agree c lk n (F s) st st1 s s1 st2 Ha Hs E) as (st3 & E3 & Ha3).
    rewrite (HF s s1 Hs), E3. cbn [mbind option_bind]. by eapply IH.
Qed.

Lemma foldl_like {A} (f : A -> specie -> A) l l1 :
  Forall2 like l l1 -> (forall a s s1, like s s1 -> f a s1 = f a s) -> forall a, foldl f a l1 = foldl f a l.
Proof. intros H Hf. induction H as [|s s1 l l1 Hs H IH]; intros a; cbn; [done|]. rewrite (Hf a s s1 Hs). apply IH. Qed.

Lemma raw_like o sig s s1 : like s s1 -> raw_fitness o sig s1 = raw_fitness o sig s.
Proof. intros (L1 & L2 & L3 & L4). unfold raw_fitness. by rewrite L2, L3. Qed.
Lemma norm_like o sig w b s s1 : like s s1 -> norm_fitness o sig w b s1 = norm_fitness o sig w b s.
Proof. intros (L1 & L2 & L3 & L4). unfold norm_fitness. by rewrite L2, L3. Qed.

Lemma reproduce_like c lk G l l1 r G' gg' :
  Forall2 like l l1 -> reproduce c lk G l = Some (r, G', gg') ->
  exists r1, reproduce c lk G l1 = Some (r1, G', gg') /\ Forall2 (fun s s1 => s_rep s1 = s_rep s) r r1.
Proof.
  intros Hl E. unfold reproduce in *. cbv zeta in *.
  assert (E1 : oldest_age l1 = oldest_age l).
  { unfold oldest_age. apply foldl_like; [done|]. intros a s s1 (L1 & L2 & L3 & L4). by rewrite L2, L3. }
  assert (E2 : best_fitness (oldest_age l) (age_sig c) l1 = best_fitness (oldest_age l) (age_sig c) l).
  { unfold best_fitness. inversion Hl as [|s s1 l' l1' Hs Hl']; subst; [done|]. rewrite (raw_like _ _ _ _ Hs).
    apply foldl_like; [done|]. intros a t t1 Ht. by rewrite (raw_like _ _ _ _ Ht). }
  assert (E3 : worst_fitness (oldest_age l) (age_sig c) l1 = worst_fitness (oldest_age l) (age_sig c) l).
  { unfold worst_fitness. inversion Hl as [|s s1 l' l1' Hs Hl']; subst; [done|]. rewrite (raw_like _ _ _ _ Hs).
    apply foldl_like; [done|]. intros a t t1 Ht. by rewrite (raw_like _ _ _ _ Ht). }
  rewrite E1, E2, E3. pose proof (Forall2_length _ _ _ Hl) as Ll.
  assert (E4 : mean_fitness (oldest_age l) (age_sig c) (worst_fitness (oldest_age l) (age_sig c) l) (best_fitness (oldest_age l) (age_sig c) l) l1 =
               mean_fitness (oldest_age l) (age_sig c) (worst_fitness (oldest_age l) (age_sig c) l) (best_fitness (oldest_age l) (age_sig c) l) l).
  { unfold mean_fitness. rewrite <- Ll.
    rewrite (foldl_like (fun a s => (a + norm_fitness (oldest_age l) (age_sig c) (worst_fitness (oldest_age l) (age_sig c) l) (best_fitness (oldest_age l) (age_sig c) l) s)%R) l l1 Hl)
      by (intros a s s1 Hs; by rewrite (norm_like _ _ _ _ _ _ Hs)).
    destruct l, l1; done. }
  rewrite E4, <- Ll. apply bind_Some in E as (st' & Es & E).
  match type of Es with each (fun st s => breed_species c lk ?n (?F s) st s) l ?st = _ =>
    destruct (breed_all_agree c lk n F l l1 st st st') as (st1 & -> & (A1 & A2 & A3 & A4 & A5)) end; try done.
  { split; [constructor|done]. }
  { intros s s1 Hs. apply (norm_like _ _ _ _ _ _ Hs). }
  cbn [mbind option_bind] in *. rewrite <- A2, <- A3, <- A4.
  match goal with |- context [if keep_parents c then ?A else ?B] => destruct (if keep_parents c then A else B) as [gg|]; cbn [mbind option_bind] in *; [|done] end.
  destruct (cross_champions _ _ _ _ _) as [gg2|]; cbn [mbind option_bind] in *; [|done]. apply (inj Some) in E. injection E as <- <- <-.
  eexists. split; [done|]. unfold clear_species, update_best. rewrite <- !list_fmap_compose. apply Forall2_fmap_2.
  eapply Forall2_impl; [exact A1|]. intros s s1 (L1 & _). done.
Qed.

(** ** The rescaled fitness *)

Lemma rescale_iff gs first best :
  first ∈ gs -> is_fittest gs best ->
  Forall (fun x => 0 <= i_fitness x <= 1)%R (rescale (i_fitness first) (i_fitness best) gs) <->
  forall x, x ∈ gs -> (i_fitness first <= i_fitness x)%R.
Proof.
  intros Hf [Hb Hm]. unfold rescale. rewrite list.Forall_fmap, list.Forall_forall.
  remember (if Req_EM_T (i_fitness best - i_fitness first) 0 then (1 / 10000)%R else (i_fitness best - i_fitness first)%R) as d eqn:Ed.
  pose proof (Hm _ Hf) as Hfb.
  assert (Hd : (0 < d)%R). { rewrite Ed. destruct (Req_EM_T _ _) as [?|Hne]; [lra|]. apply (Rle_neq_lt 0); [lra|done|done]. }
  assert (Hdb : (i_fitness best - i_fitness first <= d)%R). { rewrite Ed. destruct (Req_EM_T _ _); lra. }
  split.
  - intros H x Hx. destruct (H x Hx) as [H1 _]. cbn in H1. unfold Rdiv in H1.
    destruct (Rle_dec (i_fitness first) (i_fitness x)) as [?|Hn]; [done|]. exfalso.
    assert (0 < / d)%R by by apply Rinv_0_lt_compat. nra.
  - intros H x Hx. pose proof (H x Hx). pose proof (Hm x Hx). cbn. split.
    + apply Rmult_le_pos; [lra|by apply Rlt_le, Rinv_0_lt_compat].
    + apply (Rmult_le_reg_r d); [done|]. unfold Rdiv. rewrite Rmult_assoc, Rinv_l by lra. lra.
Qed.

(** ** Sorting fitnesses between 0 and 1 *)

Lemma merge_loop_const : forall (l r : list (Z * nat)),
  Forall (fun x => x.1 = 0%Z) l -> Forall (fun x => x.1 = 0%Z) r -> merge_loop l r = map snd l ++ map snd r.
Proof.
  induction l as [|x l IH]; intros r Hl Hr.
  - destruct r; done.
  - apply list.Forall_cons in Hl as [Hx Hl]. destruct r as [|y r].
    + cbn. by rewrite app_nil_r.
    + pose proof Hr as Hr'. apply list.Forall_cons in Hr' as [Hy _]. change (merge_loop (x :: l) (y :: r)) with
        (if (x.1 <=? y.1)%Z then x.2 :: merge_loop l (y :: r) else y.2 :: merge_loop (x :: l) r).
      rewrite Hx, Hy. cbn [Z.leb Z.compare]. rewrite IH by done. done.
Qed.

Lemma Forall_seg {A} (P : A -> Prop) a b (l : list A) : Forall P l -> Forall P (take b (drop a l)).
Proof. intros H. by apply Forall_take, Forall_drop. Qed.

Lemma merge_sort_const values : Forall (fun v => v = 0%Z) values -> forall fuel indices low high,
  high < length indices -> high < length values -> high + 1 - low < fuel ->
  merge_sort 1 fuel values indices low high = Some indices.
Proof.
  intros Hv. induction fuel as [|fuel IH]; intros indices low high H1 H2 H3; [lia|]. cbn [merge_sort].
  case_decide as Hd; [|done].
  assert (Hm : low <= low + (high - low) / 2 < high).
  { pose proof (Nat.div_lt (high - low) 2). pose proof (Nat.mul_div_le (high - low) 2). lia. }
  set (m := low + (high - low) / 2) in *. rewrite IH by lia. cbn [mbind option_bind]. rewrite IH by lia. cbn [mbind option_bind].
  unfold merge_seg. rewrite decide_True by lia. f_equal.
  assert (Hz : forall a b (ix : list nat), Forall (fun x : Z * nat => x.1 = 0%Z) (zip (map (to_int 1) (take b (drop a values))) ix)).
  { intros a b ix. apply list.Forall_forall. intros x Hx. destruct x as [v i]. apply elem_of_zip_l in Hx. cbn.
    apply elem_of_list_In, in_map_iff in Hx as (w & <- & Hw). apply elem_of_list_In in Hw.
    pose proof (Forall_seg _ a b _ Hv) as F. rewrite list.Forall_forall in F. by rewrite (F _ Hw). }
  rewrite merge_loop_const by apply Hz.
  assert (Hsnd : forall (vs : list Z) (ix : list nat), length ix <= length vs -> map snd (zip vs ix) = ix).
  { intros vs ix Hl. by apply (snd_zip vs ix). }
  rewrite !Hsnd by (rewrite map_length, !take_length, !drop_length; lia).
  assert (S1 : take low indices ++ take (m + 1 - low) (drop low indices) = take (m + 1) indices).
  { rewrite <- (take_drop low (take (m + 1) indices)). rewrite take_take, skipn_firstn_comm. f_equal. f_equal. lia. }
  assert (S2 : take (m + 1) indices ++ take (high + 1 - (m + 1)) (drop (m + 1) indices) = take (high + 1) indices).
  { rewrite <- (take_drop (m + 1) (take (high + 1) indices)). rewrite take_take, skipn_firstn_comm. f_equal. f_equal. lia. }
  rewrite !app_assoc, S1, S2. apply take_drop.
Qed.

Lemma trunc_small x : (0 <= x < 1)%R -> trunc x = 0%Z.
Proof.
  intros [H1 H2]. unfold trunc. destruct (Rle_dec 0 x); [|lra]. destruct (base_Int_part x) as [B1 B2].
  assert (Int_part x < 1)%Z by (apply lt_IZR; lra). assert (-1 < Int_part x)%Z by (apply lt_IZR; cbn; lra). lia.
Qed.

Lemma Forall2_rev {A B} (P : A -> B -> Prop) l k : Forall2 P l k -> Forall2 P (rev l) (rev k).
Proof. induction 1 as [|x y l k H F IH]; cbn; [constructor|]. apply Forall2_app; [done|]. by constructor; [|constructor]. Qed.

Lemma mapM_rd_rev {A} (l : list A) : mapM (rd l) (rev (seq 0 (length l))) = Some (rev l).
Proof. apply mapM_Some, Forall2_rev, mapM_Some, mapM_rd_seq. Qed.

Lemma sort_fractions gs :
  Forall (fun x => 0 <= i_fitness x < 1)%R gs -> sort_by_fitness gs = Some (rev gs).
Proof.
  intros H. unfold sort_by_fitness, sort_array. rewrite seq_length.
  assert (Hz : Forall (fun v => v = 0%Z) ((fun x => trunc (i_fitness x)) <$> gs)).
  { apply list.Forall_fmap. eapply list.Forall_impl; [exact H|]. intros x Hx. by apply trunc_small. }
  destruct (length gs) as [|h] eqn:El.
  - apply nil_length_inv in El as ->. done.
  - rewrite merge_sort_const; [|done|rewrite seq_length; lia|rewrite fmap_length; lia|lia].
    cbn [mbind option_bind]. rewrite <- El. apply mapM_rd_rev.
Qed.
