From Coq Require Import R_sqrt.
From Verif Require Import NumLib Upd_Model Upd_Spec Net_Model Net_Spec Net_Proofs Net_Clip Agc_Spec.
Open Scope nat_scope.

Section agc.
Context (w : heap) (thr eps : R).
(** what the program multiplies a unit by *)
Definition factor (h : heap) (u : unit) : R :=
  if decide (thr < size_w w eps u / gnorm h (unit_slots u))%R then (1 / (size_w w eps u / gnorm h (unit_slots u)) * thr)%R else 1%R.
Lemma factor_ext h h' u : (forall p, p ∈ unit_slots u -> get h' p = get h p) -> factor h' u = factor h u.
Proof.
  intros H. unfold factor. replace (gnorm h' (unit_slots u)) with (gnorm h (unit_slots u)); [done|]. unfold gnorm, sumsq. f_equal. apply suml_map_ext. intros p Hp. by rewrite H.
Qed.
Definition same_shape (h h' : heap) : Prop := forall a nm, length (h' a nm) = length (h a nm).
Lemma allocated_shape h h' S : same_shape h h' -> allocated h S -> allocated h' S.
Proof. intros H Ha. eapply list.Forall_impl; [exact Ha|]. cbn. intros p. by rewrite H. Qed.
Lemma Sums_unit h u : allocated h (unit_slots u) -> for_loop (u_n u) 0 (fun j => sqr h (u_at u) (u_nm u) (u_b u + j)) 0%R = Some (sumsq h (unit_slots u)).
Proof.
  intros Ha. assert (HS : Sums (sizes h) h (for_loop (u_n u) 0 (fun j => sqr h (u_at u) (u_nm u) (u_b u + j))) (unit_slots u)).
  { unfold unit_slots. rewrite <- concat_map_single. apply Sums_loop. intros j _. by apply Sums_sqr. }
  rewrite (HS Ha). f_equal. lra.
Qed.
Lemma NoDup_unit u : NoDup (unit_slots u).
Proof. unfold unit_slots. apply NoDup_fmap_2; [|apply NoDup_seq]. intros i j H. inversion H. lia. Qed.
Lemma adapt_unit_run h u : allocated w (unit_slots u) -> allocated h (unit_slots u) ->
  exists h', adapt_unit w thr eps (u_at u) (u_nm u) (u_b u) (u_n u) h = Some h' /\ scaled (factor h u) (unit_slots u) h h'.
Proof.
  intros Hw Ha. unfold adapt_unit. rewrite (Sums_unit w u Hw), (Sums_unit h u Ha). cbn [mbind option_bind]. fold (gnorm w (unit_slots u)) (gnorm h (unit_slots u)). fold (size_w w eps u).
  unfold factor. destruct (decide _) as [Hr|Hr].
  - set (k := (1 / (size_w w eps u / gnorm h (unit_slots u)) * thr)%R).
    assert (HS : Scales (sizes h) k (for_loop (u_n u) 0 (fun j => mul k (u_at u) (u_nm u) (u_b u + j))) (unit_slots u)).
    { unfold unit_slots. rewrite <- concat_map_single. apply Scales_loop. intros j _. by apply Scales_mul. }
    rewrite (HS Ha h) by done. eexists. split; [reflexivity|]. apply scale_all_scaled; [apply NoDup_unit|done].
  - exists h. split; [done|]. split; [done|]. intros p. destruct (decide _); lra.
Qed.

(** f treats the units us, which are disjoint, one after the other *)
Definition Adapts (f : heap -> option heap) (us : list unit) : Prop := forall h, Forall (fun u => allocated w (unit_slots u) /\ allocated h (unit_slots u)) us ->
  NoDup (concat (map unit_slots us)) -> exists h', f h = Some h' /\ same_shape h h' /\ units_scaled (factor h) us h h'.
Lemma Adapts_id : Adapts Some [].
Proof. intros h _ _. exists h. split; [done|]. split; [done|]. split; [|done]. intros u p Hu. by apply not_elem_of_nil in Hu. Qed.
Lemma Adapts_unit u : Adapts (adapt_unit w thr eps (u_at u) (u_nm u) (u_b u) (u_n u)) [u].
Proof.
  intros h Ha _. inversion Ha as [|? ? [Hw Hh] _]; subst. destruct (adapt_unit_run h u Hw Hh) as (h' & E & [Hs Hg]). exists h'. split; [done|]. split; [done|]. split.
  - intros v p Hv Hp. apply elem_of_list_singleton in Hv as ->. rewrite Hg. by rewrite decide_True.
  - intros p Hp. rewrite Hg, decide_False; [done|]. apply Hp. by left.
Qed.
Lemma in_units us p : p ∈ concat (map unit_slots us) <-> exists u, u ∈ us /\ p ∈ unit_slots u.
Proof.
  split.
  - intros H. apply elem_of_list_In, in_concat in H as (l & Hl & Hp). apply in_map_iff in Hl as (u & <- & Hu). exists u. split; by apply elem_of_list_In.
  - intros (u & Hu & Hp). apply elem_of_list_In, in_concat. exists (unit_slots u). split; [apply in_map; by apply elem_of_list_In|by apply elem_of_list_In].
Qed.
Lemma Adapts_seq f g us vs : Adapts f us -> Adapts g vs -> Adapts (fun s => s ← f s; g s) (us ++ vs).
Proof.
  intros Hf Hg h Ha Hn. apply list.Forall_app in Ha as [Ha1 Ha2]. rewrite map_app, concat_app in Hn. apply list.NoDup_app in Hn as (Hn1 & Hd & Hn2).
  destruct (Hf h Ha1 Hn1) as (h1 & E1 & S1 & K1 & U1). rewrite E1. cbn [mbind option_bind].
  destruct (Hg h1) as (h2 & E2 & S2 & K2 & U2); [|done|].
  { eapply list.Forall_impl; [exact Ha2|]. cbn. intros u [? ?]. split; [done|]. by eapply allocated_shape. }
  assert (Hv : forall v p, v ∈ vs -> p ∈ unit_slots v -> get h1 p = get h p).
  { intros v p Hv Hp. apply U1. intros u Hu Hp'. apply (Hd p); apply in_units; eauto. }
  exists h2. split; [done|]. split; [by intros a nm; rewrite S2, S1|]. split.
  - intros u p Hu Hp. apply elem_of_app in Hu as [Hu|Hu].
    + rewrite U2; [by apply K1|]. intros v Hv' Hp'. apply (Hd p); apply in_units; eauto.
    + rewrite (K2 u p Hu Hp). rewrite (Hv u p Hu Hp). f_equal. apply factor_ext. intros q Hq. by eapply Hv.
  - intros p Hp. rewrite U2, U1; [done|..].
    + intros u Hu. apply Hp. apply elem_of_app. by left.
    + intros u Hu. apply Hp. apply elem_of_app. by right.
Qed.
Lemma Adapts_eq f g us : (forall s, f s = g s) -> Adapts g us -> Adapts f us.
Proof. intros E H h Ha Hn. rewrite E. by apply H. Qed.
Lemma Adapts_loop n i0 body us : (forall i, i0 <= i < i0 + n -> Adapts (body i) (us i)) -> Adapts (for_loop n i0 body) (concat (map us (seq i0 n))).
Proof.
  revert i0. induction n as [|n IH]; intros i0 H; [apply Adapts_id|]. cbn [for_loop seq map concat]. apply Adapts_seq; [apply H; lia|]. apply IH. intros. apply H. lia.
Qed.
Lemma Adapts_upto {A} (l : list A) body L : (forall x, x ∈ l -> Adapts (body x) (L x)) -> Adapts (over l body) (concat (map L l)).
Proof.
  intros H. unfold over, upto.
  enough (forall i0 (pre : list A), length pre = i0 -> Adapts (for_loop (length l) i0 (fun i s => x ← rd (pre ++ l) i; body x s)) (concat (map L l))) as HH by (by apply (HH 0 [])).
  induction l as [|x l IH]; intros i0 pre Hp; [apply Adapts_id|]. cbn [length for_loop map concat].
  eapply Adapts_eq; [|apply Adapts_seq].
  - intros s. replace (rd (pre ++ x :: l) i0) with (Some x); [cbn [mbind option_bind]; reflexivity|]. unfold rd. rewrite lookup_app_r by lia. by rewrite Hp, Nat.sub_diag.
  - apply H. left.
  - replace (pre ++ x :: l) with ((pre ++ [x]) ++ l) by (by rewrite <- app_assoc). apply IH; [intros; apply H; by right|]. rewrite app_length. cbn. lia.
Qed.
Lemma Adapts_rows a nm rows cols : Adapts (adapt_rows w thr eps a nm rows cols) (rows_of a nm rows cols).
Proof. unfold rows_of. rewrite <- concat_map_single. apply Adapts_loop. intros i _. apply (Adapts_unit (Unit a nm (i * cols) cols)). Qed.
Lemma Adapts_fcl f : Adapts (adapt_fcl w thr eps f) (fcl_units f).
Proof.
  unfold adapt_fcl, fcl_units. destruct (fl_only_dropout (f_cfg f)); [apply Adapts_id|]. destruct (fl_mode (f_cfg f)); dm; first [apply Adapts_rows|apply Adapts_id].
Qed.
Lemma Adapts_cl f : cv_mode (c_cfg f) <> EDGE_POPUP -> Adapts (adapt_cl w thr eps f) (cl_units f).
Proof.
  intros Hm. unfold adapt_cl, cl_units. destruct (cv_conv (c_cfg f)); [|apply Adapts_id]. destruct (cv_mode (c_cfg f)); dm; try done; try apply Adapts_id.
  rewrite <- concat_map_single. apply Adapts_loop. intros k _. apply (Adapts_unit (Unit (c_at f) (Kernel k) 0 _)).
Qed.
Lemma Adapts_lstm f : Adapts (adapt_lstm w thr eps f) (lstm_units f).
Proof.
  unfold adapt_lstm, lstm_units. destruct (ls_mode (l_cfg f)); dm; try apply Adapts_id; apply Adapts_loop; intros k _; apply Adapts_seq; apply Adapts_rows.
Qed.
Lemma Adapts_model m : no_conv_scores m -> Adapts (adapt_model w thr eps m) (model_units m).
Proof.
  unfold no_conv_scores. rewrite list.Forall_app, !list.Forall_forall. intros [Hc Hr]. unfold adapt_model, model_units. apply Adapts_seq; [|apply Adapts_seq].
  - apply Adapts_upto. intros f _. apply Adapts_fcl.
  - apply Adapts_upto. intros f Hf. by apply Adapts_cl, Hc.
  - rewrite concat_map, concat_concat_map, map_map. apply Adapts_upto. intros cs Hcs. apply Adapts_upto. intros f Hf. apply Adapts_cl, Hr. apply elem_of_list_In, in_concat. exists cs. split; by apply elem_of_list_In.
Qed.
End agc.

(** * The units of distinct layers are disjoint *)
Lemma rows_slots a nm rows cols : concat (map unit_slots (rows_of a nm rows cols)) = arr a nm (rows * cols).
Proof.
  unfold rows_of. rewrite map_map. induction rows as [|r IH]; [done|]. rewrite seq_S, map_app, concat_app, IH. cbn [map concat]. rewrite app_nil_r.
  unfold arr, unit_slots. cbn [u_at u_nm u_b u_n]. replace (S r * cols) with (r * cols + cols) by lia. rewrite seq_app, map_app. f_equal.
  replace (seq (0 + r * cols) cols) with (map (Nat.add (r * cols)) (seq 0 cols)); [by rewrite map_map|]. change (map ?f ?l) with (f <$> l). rewrite fmap_add_seq. f_equal. lia.
Qed.
Lemma kernels_slots a n K : concat (map unit_slots (map (fun k => Unit a (Kernel k) 0 n) (seq 0 K))) = slots a (map Kernel (seq 0 K)) (fun _ => true) (fun _ => n).
Proof. rewrite slots_map, map_map. done. Qed.
Lemma NoDup_fcl_units f : NoDup (concat (map unit_slots (fcl_units f))).
Proof. unfold fcl_units. destruct (fl_only_dropout (f_cfg f)); [constructor|]. destruct (fl_mode (f_cfg f)); try constructor; rewrite rows_slots; apply NoDup_arr. Qed.
Lemma NoDup_cl_units f : NoDup (concat (map unit_slots (cl_units f))).
Proof.
  unfold cl_units. destruct (cv_conv (c_cfg f)); [|constructor]. destruct (cv_mode (c_cfg f)); try constructor; rewrite kernels_slots; apply NoDup_slots. apply NoDup_fmap_2; [|apply NoDup_seq]. intros i j H. by inversion H.
Qed.
Lemma concat_map_concat {A B} (f : A -> list B) l : concat (map f (concat l)) = concat (map (fun x => concat (map f x)) l).
Proof. by rewrite concat_map, concat_concat_map, map_map. Qed.
Lemma slots_concat a l t sz : slots a (concat l) t sz = concat (map (fun ns => slots a ns t sz) l).
Proof. induction l as [|ns l IH]; [done|]. cbn [concat map]. by rewrite slots_app, IH. Qed.
Lemma NoDup_lstm_units f : NoDup (concat (map unit_slots (lstm_units f))).
Proof.
  assert (H : forall (w u : nat -> name) n m, NoDup (concat (map (fun k => [w k; u k]) (seq 0 4))) ->
    NoDup (concat (map unit_slots (concat (map (fun k => rows_of (l_at f) (w k) n m ++ rows_of (l_at f) (u k) n n) (seq 0 4)))))).
  { intros w u n m Hn. rewrite concat_map_concat, map_map.
    rewrite (concat_map_ext _ (fun k => slots (l_at f) [w k] (fun _ => true) (fun _ => n * m) ++ slots (l_at f) [u k] (fun _ => true) (fun _ => n * n))).
    - rewrite <- (concat_map_ext (fun k => slots (l_at f) [w k; u k] (fun _ => true) (fun nm => if decide (nm ∈ map w (seq 0 4)) then n * m else n * n))).
      + enough (E : slots (l_at f) (concat (map (fun k => [w k; u k]) (seq 0 4))) (fun _ => true) (fun nm => if decide (nm ∈ map w (seq 0 4)) then n * m else n * n) =
          concat (map (fun k => slots (l_at f) [w k; u k] (fun _ => true) (fun nm => if decide (nm ∈ map w (seq 0 4)) then n * m else n * n)) (seq 0 4))) by (rewrite <- E; by apply NoDup_slots).
        by rewrite slots_concat, map_map.
      + intros k Hk. change [w k; u k] with ([w k] ++ [u k]). rewrite slots_app. unfold slots. cbn [map concat]. rewrite !app_nil_r. rewrite decide_True by (apply elem_of_list_fmap; by exists k). rewrite decide_False; [done|].
        intros Hu. apply elem_of_list_In, in_map_iff in Hu as (k' & E & Hk'). apply elem_of_seq in Hk. apply in_seq in Hk'. cbn in Hn.
        repeat (apply list.NoDup_cons in Hn as [? Hn]). rewrite !not_elem_of_cons in *. 
        destruct k as [|[|[|[|]]]]; try lia; destruct k' as [|[|[|[|]]]]; try lia; intuition congruence.
    - intros k _. rewrite map_app, concat_app, !rows_slots. unfold slots. cbn [map concat]. by rewrite !app_nil_r. }
  unfold lstm_units. destruct (ls_mode (l_cfg f)); try constructor; apply H; apply (bool_decide_unpack _); vm_compute; done.
Qed.
Lemma rows_at a nm r c u : u ∈ rows_of a nm r c -> u_at u = a.
Proof. unfold rows_of. intros H. apply elem_of_list_In, in_map_iff in H as (i & <- & _). done. Qed.
Lemma block_ok_units a us : NoDup (concat (map unit_slots us)) -> (forall u, u ∈ us -> u_at u = a) -> block_ok (a, concat (map unit_slots us)).
Proof.
  intros Hn H. split; [done|]. cbn [fst snd]. intros p Hp. apply in_units in Hp as (u & Hu & Hp). unfold unit_slots in Hp. apply elem_of_list_In, in_map_iff in Hp as (j & <- & _). by apply H.
Qed.
Lemma fcl_units_at f u : u ∈ fcl_units f -> u_at u = f_at f.
Proof. unfold fcl_units. destruct (fl_only_dropout (f_cfg f)); [by intros ?%not_elem_of_nil|]. destruct (fl_mode (f_cfg f)); intros H; first [by apply rows_at in H|by apply not_elem_of_nil in H]. Qed.
Lemma cl_units_at f u : u ∈ cl_units f -> u_at u = c_at f.
Proof.
  unfold cl_units. destruct (cv_conv (c_cfg f)); [|by intros ?%not_elem_of_nil]. destruct (cv_mode (c_cfg f)); intros H; try (by apply not_elem_of_nil in H).
  apply elem_of_list_In, in_map_iff in H as (k & <- & _). done.
Qed.
Lemma lstm_units_at f u : u ∈ lstm_units f -> u_at u = l_at f.
Proof.
  unfold lstm_units. destruct (ls_mode (l_cfg f)); intros H; try (by apply not_elem_of_nil in H);
    apply elem_of_list_In, in_concat in H as (l & Hl & H); apply in_map_iff in Hl as (k & <- & _); apply elem_of_list_In, elem_of_app in H as [H|H]; by apply rows_at in H.
Qed.
Lemma NoDup_model_units m : NoDup (addrs m) -> NoDup (concat (map unit_slots (model_units m))).
Proof.
  intros Hn. set (U := fun us => concat (map unit_slots us)).
  set (bs := map (fun f => (f_at f, U (fcl_units f))) (fcls m) ++ map (fun f => (c_at f, U (cl_units f))) (cls m) ++ map (fun f => (c_at f, U (cl_units f))) (concat (rls m)) : list block).
  replace (concat (map unit_slots (model_units m))) with (concat (map snd bs)).
  - apply NoDup_blocks; [unfold bs; rewrite !map_app, !map_map; exact Hn|]. unfold bs. rewrite !list.Forall_app, !Forall_fmap. split_and!; apply Forall_true; intros f; apply block_ok_units.
    + apply NoDup_fcl_units.
    + apply fcl_units_at.
    + apply NoDup_cl_units.
    + apply cl_units_at.
    + apply NoDup_cl_units.
    + apply cl_units_at.
  - unfold bs, model_units. rewrite !map_app, !concat_app, !concat_map_concat, !map_map. done.
Qed.
Lemma NoDup_rmodel_units ls : NoDup (map l_at ls) -> NoDup (concat (map unit_slots (concat (map lstm_units ls)))).
Proof.
  intros Hn. rewrite concat_map_concat, map_map. rewrite <- (map_map (fun f => (l_at f, concat (map unit_slots (lstm_units f)))) snd). apply NoDup_blocks; [by rewrite map_map|].
  apply Forall_fmap, Forall_true. intros f. apply block_ok_units; [apply NoDup_lstm_units|apply lstm_units_at].
Qed.
