(** Proofs about the functions that reinitialise weights by their scores, or set them to zero. *)
From Verif Require Import Base BaseLemmas Flat_Model Flat_Spec Scr_Model Scr_Spec Scr_Proofs.
Open Scope nat_scope.

Section proofs.
  Context {F : Type}.
  Implicit Types h : mem F.
  Variable lt : F -> F -> bool.
  Variable ix : nat -> option (list nat).
  Variable kaiming : nat -> F.
  Variable part : nat -> F -> nat.
  Variable sub_eps : F -> F.
  Variable zero : F.

  Lemma rdm_score h f j : rdm h (f_at f) (Val Scores) j = score h (Dense f) j.
  Proof. unfold rdm, score, rd. reflexivity. Qed.

  Lemma dense_scored f n : with_scores (Dense f) n -> exists_edge_popup_stuff_fcl f = true /\ n = f_in f * f_out f.
  Proof.
    unfold with_scores. rewrite layout_dense. destruct (exists_edge_popup_stuff_fcl f); [|done].
    intros [= ->]. done.
  Qed.
  Lemma conv_scored c n : with_scores (Conv c) n -> exists_edge_popup_stuff_cl c = true /\ n = nsc c.
  Proof.
    unfold with_scores. rewrite layout_conv. destruct (exists_edge_popup_stuff_cl c); [|done].
    intros [= ->]. done.
  Qed.

  Lemma ranks_len h z n idx : ranks lt h z n idx -> length idx = n.
  Proof. intros [P _]. apply Permutation_length in P. by rewrite seq_length in P. Qed.
  Lemma ranks_lt h z n idx i j : ranks lt h z n idx -> idx !! i = Some j -> j < n.
  Proof.
    intros [P _] E. apply elem_of_list_lookup_2 in E. rewrite P in E. apply elem_of_seq in E. lia.
  Qed.

  Lemma reinit_nothing percentage goodness f h n idx j s :
    with_scores (Dense f) n -> ix (f_at f) = Some idx -> idx !! (n - 1) = Some j ->
    score h (Dense f) j = Some s -> lt s goodness = false ->
    reinitialize_fcl lt ix kaiming part percentage goodness f h = Some h.
  Proof.
    intros W Ei Ej Es L. destruct (dense_scored f n W) as [X ->].
    unfold reinitialize_fcl. rewrite X. cbn [negb].
    destruct (f_in f * f_out f - 1 - part (f_in f * f_out f) percentage) as [|st]; [done|].
    rewrite Ei. cbn [mbind option_bind reinit_loop]. unfold rd. rewrite Ej. cbn [mbind option_bind].
    rewrite rdm_score, Es. cbn [mbind option_bind]. by rewrite L.
  Qed.

  Lemma reinit_inner_nothing k f h n idx :
    with_scores (Dense f) n -> 0 < n -> part n k <= n -> ix (f_at f) = Some idx ->
    ready h (Dense f) -> ranks lt h (Dense f) n idx ->
    reinitialize_inner_fcl lt ix kaiming part k f h = Some h.
  Proof.
    intros W Hn Hp Ei R K. pose proof (ranks_len _ _ _ _ K) as L.
    destruct (dense_scored f n W) as [X En]. unfold reinitialize_inner_fcl. rewrite X. cbn [negb].
    rewrite <- En. destruct (decide (part n k = 0)); [done|]. rewrite Ei. cbn [mbind option_bind].
    unfold rd. destruct (lookup_lt_is_Some_2 idx (part n k - 1)) as [j Ej]; [lia|]. rewrite Ej.
    cbn [mbind option_bind]. rewrite rdm_score.
    destruct (lookup_lt_is_Some_2 idx (n - 1)) as [j' Ej']; [lia|].
    destruct (R n W) as (l & El & Ll).
    assert (T : forall q, q < n -> exists s, score h (Dense f) q = Some s).
    { intros q Hq. unfold score. rewrite El. cbn. apply lookup_lt_is_Some_2. lia. }
    destruct (T j) as [s Es]; [by eapply ranks_lt|]. destruct (T j') as [s' Es']; [by eapply ranks_lt|].
    rewrite Es. cbn [mbind option_bind].
    eapply reinit_nothing; [done|done|done|done|].
    destruct K as [_ K]. eapply (K (part n k - 1) (n - 1)); [lia|done..].
  Qed.

  (** writing at the places listed *)
  Lemma wrm_ok h a s l j x : h a s = Some l -> j < length l ->
    wrm h a s j x = Some (upd h a s (<[j := x]> l)).
  Proof.
    intros E L. unfold wrm. rewrite E. cbn. rewrite wr_Some by done. done.
  Qed.

  Lemma renew_ok f idx sc m h lw ls :
    h (f_at f) (Val Weights) = Some lw -> h (f_at f) (Val Scores) = Some ls ->
    length lw = length idx -> length ls = length idx -> m <= length idx ->
    NoDup idx -> (forall j, j ∈ idx -> j < length idx) ->
    exists h' lw' ls', each1 (renew_step kaiming f idx sc) (seq 0 m) h = Some h' /\
      h' (f_at f) (Val Weights) = Some lw' /\ h' (f_at f) (Val Scores) = Some ls' /\
      length lw' = length idx /\ length ls' = length idx /\
      (forall i j, i < m -> idx !! i = Some j -> lw' !! j = Some (kaiming i) /\ ls' !! j = Some sc) /\
      (forall j, j ∉ take m idx -> lw' !! j = lw !! j /\ ls' !! j = ls !! j) /\
      (forall a s, (a, s) <> (f_at f, Val Weights) -> (a, s) <> (f_at f, Val Scores) -> h' a s = h a s).
  Proof.
    intros Ew Es Lw Ls Hm ND B. induction m as [|m IH].
    - exists h, lw, ls. split_and!; try done. lia.
    - destruct IH as (h1 & lw1 & ls1 & E1 & Ew1 & Es1 & Lw1 & Ls1 & P & Q & N); [lia|].
      destruct (lookup_lt_is_Some_2 idx m) as [j Ej]; [lia|].
      assert (Hj : j < length idx) by (apply B; by eapply elem_of_list_lookup_2).
      rewrite seq_S, each1_app, E1. cbn. unfold renew_step, rd. rewrite Ej. cbn.
      rewrite (wrm_ok _ _ _ lw1) by (done || lia). cbn.
      rewrite (wrm_ok _ _ _ ls1); [|rewrite upd_ne by done; done|lia]. cbn.
      eexists _, _, _. split; [reflexivity|]. rewrite upd_eq. rewrite upd_ne by done. rewrite upd_eq.
      split; [reflexivity|]. split; [reflexivity|]. rewrite !insert_length.
      split; [done|]. split; [done|]. split; [|split].
      + intros i j' Hi Ej'. destruct (decide (i = m)) as [->|D].
        * assert (j' = j) as -> by congruence. rewrite !list_lookup_insert by lia. done.
        * assert (j' <> j). { intros ->. apply D. by eapply NoDup_lookup. }
          rewrite !list_lookup_insert_ne by done. apply P; [lia|done].
      + intros j' Hj'. rewrite (take_S_r _ _ _ Ej) in Hj'. apply not_elem_of_app in Hj' as [H1 H2].
        apply not_elem_of_cons in H2 as [H2 _]. rewrite !list_lookup_insert_ne by done. by apply Q.
      + intros a s A B'. rewrite !upd_ne by done. by apply N.
  Qed.

  (** the loop from the highest rank down: [t] is one more than the rank it starts with *)
  Lemma reinit_ok f idx goodness steps t h lw ls :
    h (f_at f) (Val Weights) = Some lw -> h (f_at f) (Val Scores) = Some ls ->
    length lw = length idx -> length ls = length idx -> steps <= t <= length idx ->
    NoDup idx -> (forall j, j ∈ idx -> j < length idx) ->
    exists h' lw' ls' m, reinit_loop lt kaiming f idx goodness steps (t - 1) h = Some h' /\
      h' (f_at f) (Val Weights) = Some lw' /\ h' (f_at f) (Val Scores) = Some ls' /\ m <= steps /\
      (forall i j, t - m <= i < t -> idx !! i = Some j ->
         (exists s, ls !! j = Some s /\ lt s goodness = true) /\ lw' !! j = Some (kaiming i) /\ ls' !! j = Some goodness) /\
      (forall i j, i < t - m \/ t <= i -> idx !! i = Some j -> lw' !! j = lw !! j /\ ls' !! j = ls !! j) /\
      (m < steps -> exists j s, idx !! (t - m - 1) = Some j /\ ls !! j = Some s /\ lt s goodness = false) /\
      (forall a s, (a, s) <> (f_at f, Val Weights) -> (a, s) <> (f_at f, Val Scores) -> h' a s = h a s).
  Proof.
    intros Ew Es Lw Ls Ht ND B. revert t h lw ls Ew Es Lw Ls Ht. induction steps as [|st IH]; intros t h lw ls Ew Es Lw Ls Ht.
    - exists h, lw, ls, 0. cbn. split_and!; try done; try lia.
    - destruct (lookup_lt_is_Some_2 idx (t - 1)) as [j Ej]; [lia|].
      assert (Hj : j < length idx) by (apply B; by eapply elem_of_list_lookup_2).
      destruct (lookup_lt_is_Some_2 ls j) as [s Esj]; [lia|].
      cbn [reinit_loop]. unfold rd. rewrite Ej. cbn [mbind option_bind]. unfold rdm. rewrite Es. cbn [mbind option_bind]. unfold rd. rewrite Esj. cbn [mbind option_bind].
      destruct (lt s goodness) eqn:El.
      + rewrite (wrm_ok _ _ _ lw) by (done || lia). cbn [mbind option_bind].
        rewrite (wrm_ok _ _ _ ls); [|rewrite upd_ne by done; done|lia]. cbn [mbind option_bind].
        match goal with |- context [reinit_loop _ _ _ _ _ _ _ ?hh] => set (h1 := hh) end.
        destruct (IH (t - 1) h1 (<[j := kaiming (t - 1)]> lw) (<[j := goodness]> ls)) as (h' & lw' & ls' & m & E & Ew' & Es' & Hm & P & Q & St & N).
        { unfold h1. rewrite upd_ne by done. by rewrite upd_eq. } { unfold h1. by rewrite upd_eq. }
        { by rewrite insert_length. } { by rewrite insert_length. } { lia. }
        assert (Dj : forall i j', i <> t - 1 -> idx !! i = Some j' -> j' <> j). { intros i j' Hi Ej' ->. apply Hi. by eapply NoDup_lookup. }
        exists h', lw', ls', (S m). split; [exact E|]. split; [done|]. split; [done|]. split; [lia|]. split_and!.
        * intros i j' Hi Ej'. destruct (decide (i = t - 1)) as [->|D].
          { assert (j' = j) as -> by congruence. split; [by exists s|]. destruct (Q (t - 1) j) as [Q1 Q2]; [lia|done|].
            rewrite Q1, Q2, !list_lookup_insert by lia. done. }
          { destruct (P i j') as ((s' & Es1 & El1) & P1); [lia|done|]. split; [|done]. exists s'. rewrite list_lookup_insert_ne in Es1 by (by apply not_eq_sym, (Dj i)). done. }
        * intros i j' Hi Ej'. destruct (Q i j') as [Q1 Q2]; [lia|done|]. rewrite Q1, Q2, !list_lookup_insert_ne; [done|apply not_eq_sym, (Dj i); [lia|done]..].
        * intros Hlt. destruct St as (j' & s' & Ej' & Es1 & El1); [lia|]. exists j', s'. replace (t - S m - 1) with (t - 1 - m - 1) by lia. split; [done|]. split; [|done].
          rewrite list_lookup_insert_ne in Es1; [done|]. apply not_eq_sym, (Dj (t - 1 - m - 1)); [lia|done].
        * intros a sl A B'. rewrite N by done. unfold h1. by rewrite !upd_ne by done.
      + exists h, lw, ls, 0. split; [done|]. split; [done|]. split; [done|]. split; [lia|]. split_and!; try done; try lia.
        intros _. exists j, s. rewrite Nat.sub_0_r. done.
  Qed.

  Lemma only_percentage_ok k percentage f h n idx lw :
    with_scores (Dense f) n -> 0 < n -> 0 < part n k <= n -> part n percentage <= n ->
    ix (f_at f) = Some idx -> ready h (Dense f) -> idx ≡ₚ seq 0 n ->
    h (f_at f) (Val Weights) = Some lw -> length lw = n ->
    exists h' i j s, only_percentage_fcl ix kaiming part sub_eps k percentage f h = Some h' /\
      i = Nat.min (part n k) (n - 1) /\ idx !! i = Some j /\ score h (Dense f) j = Some s /\
      (forall i j, i < part n percentage -> idx !! i = Some j ->
         weight h' f j = Some (kaiming i) /\ score h' (Dense f) j = Some (sub_eps s)) /\
      (forall j, j ∉ take (part n percentage) idx ->
         weight h' f j = weight h f j /\ score h' (Dense f) j = score h (Dense f) j) /\
      (forall a s, (a, s) <> (f_at f, Val Weights) -> (a, s) <> (f_at f, Val Scores) -> h' a s = h a s).
  Proof.
    intros W Hn Hk Hp Ei R K Ew Lw. destruct (dense_scored f n W) as [X En].
    assert (L : length idx = n). { apply Permutation_length in K. by rewrite seq_length in K. }
    unfold only_percentage_fcl. rewrite X. cbn [negb]. rewrite <- En.
    destruct (decide (part n k = 0)); [lia|]. rewrite Ei. cbn [mbind option_bind].
    assert (Ev : part n k - (if decide (part n k = n) then 1 else 0) = Nat.min (part n k) (n - 1)).
    { destruct (decide (part n k = n)); lia. }
    rewrite Ev. unfold rd.
    destruct (lookup_lt_is_Some_2 idx (Nat.min (part n k) (n - 1))) as [j Ej]; [lia|].
    rewrite Ej. cbn [mbind option_bind].
    rewrite rdm_score. destruct (R n W) as (ls & Els & Lls). cbn [addr] in Els.
    assert (B : forall q, q ∈ idx -> q < length idx).
    { intros q Hq. rewrite K in Hq. apply elem_of_seq in Hq. lia. }
    destruct (lookup_lt_is_Some_2 ls j) as [s Es].
    { rewrite Lls, <- L. apply B. by eapply elem_of_list_lookup_2. }
    assert (Sc : score h (Dense f) j = Some s). { unfold score. cbn [addr]. rewrite Els. done. }
    rewrite Sc. cbn [mbind option_bind].
    destruct (renew_ok f idx (sub_eps s) (part n percentage) h lw ls)
      as (h' & lw' & ls' & E & Ew' & Es' & _ & _ & P & Q & N); try done; try lia.
    { rewrite K. apply NoDup_seq. }
    exists h', (Nat.min (part n k) (n - 1)), j, s. split; [done|]. split; [done|]. split; [done|]. split; [done|].
    unfold weight, score. cbn [addr]. rewrite Ew', Es', Ew, Els. cbn. split_and!; done.
  Qed.

  Lemma unused_ok u f h idx lw :
    ix (f_at f) = Some idx -> idx ≡ₚ seq 0 (length lw) ->
    h (f_at f) (Val Weights) = Some lw -> u <= length lw ->
    exists h', unused_fcl zero ix u f h = Some h' /\
      (forall i j, i < u -> idx !! i = Some j -> weight h' f j = Some zero) /\
      (forall j, j ∉ take u idx -> weight h' f j = weight h f j) /\
      (forall a s, (a, s) <> (f_at f, Val Weights) -> h' a s = h a s).
  Proof.
    intros Ei K Ew Hu.
    assert (L : length idx = length lw). { apply Permutation_length in K. by rewrite seq_length in K. }
    assert (ND : NoDup idx). { rewrite K. apply NoDup_seq. }
    assert (B : forall q, q ∈ idx -> q < length idx).
    { intros q Hq. rewrite K in Hq. apply elem_of_seq in Hq. lia. }
    unfold unused_fcl. rewrite Ei, Ew.
    assert (G : exists h' lw',
      each1 (fun i h => j ← rd idx i; wrm h (f_at f) (Val Weights) j zero) (seq 0 u) h = Some h' /\
      h' (f_at f) (Val Weights) = Some lw' /\ length lw' = length idx /\
      (forall i j, i < u -> idx !! i = Some j -> lw' !! j = Some zero) /\
      (forall j, j ∉ take u idx -> lw' !! j = lw !! j) /\
      (forall a s, (a, s) <> (f_at f, Val Weights) -> h' a s = h a s)).
    { clear K. induction u as [|u IH].
      - exists h, lw. split_and!; try done. lia.
      - destruct IH as (h1 & lw1 & E1 & Ew1 & Lw1 & P & Q & N); [lia|].
        destruct (lookup_lt_is_Some_2 idx u) as [j Ej]; [lia|].
        assert (Hj : j < length idx) by (apply B; by eapply elem_of_list_lookup_2).
        rewrite seq_S, each1_app, E1. cbn. unfold rd. rewrite Ej. cbn.
        rewrite (wrm_ok _ _ _ lw1) by (done || lia). cbn.
        eexists _, _. split; [reflexivity|]. rewrite upd_eq. split; [reflexivity|]. rewrite insert_length.
        split; [done|]. split; [|split].
        + intros i j' Hi Ej'. destruct (decide (j' = j)) as [->|D].
          * rewrite list_lookup_insert by lia. done.
          * rewrite list_lookup_insert_ne by done. apply (P i); [|done].
            destruct (decide (i = u)) as [->|]; [congruence|lia].
        + intros j' Hj'. rewrite (take_S_r _ _ _ Ej) in Hj'. apply not_elem_of_app in Hj' as [H1 H2].
          apply not_elem_of_cons in H2 as [H2 _]. rewrite list_lookup_insert_ne by done. by apply Q.
        + intros a s A. rewrite upd_ne by done. by apply N. }
    destruct G as (h' & lw' & E & Ew' & _ & P & Q & N). exists h'. split; [done|].
    unfold weight. rewrite Ew', Ew. cbn. split_and!; done.
  Qed.

  Lemma each1_fails {L S} (g : L -> S -> option S) l x s :
    x ∈ l -> (forall s, g x s = None) -> each1 g l s = None.
  Proof.
    intros Hx N. revert s. induction Hx as [x l|x y l Hx IH]; intros s; cbn.
    - by rewrite N.
    - destruct (g y s); cbn; [by apply IH|done].
  Qed.

  Lemma unused_cl_undefined u c h idx i k :
    ix (c_at c) = Some idx -> h (c_at c) (Val (Kernel 0)) <> None -> 0 < ksize c ->
    i < u -> idx !! i = Some k -> c_n c <= k ->
    unused_cl zero ix u c h = None.
  Proof.
    intros Ei Ek Hk Hi Ej Hc. unfold unused_cl. rewrite Ei. destruct (h (c_at c) (Val (Kernel 0))); [|done].
    apply (each1_fails _ _ i); [apply elem_of_seq; lia|]. intros s.
    apply (each1_fails _ _ 0); [apply elem_of_seq; lia|]. intros s'. unfold rd. rewrite Ej. cbn.
    rewrite decide_False by lia. done.
  Qed.

  Lemma only_percentage_cl_undefined k percentage c h n idx :
    with_scores (Conv c) n -> 0 < n -> part n k = n -> ix (c_at c) = Some idx -> length idx = n ->
    only_percentage_cl ix kaiming part sub_eps k percentage c h = None.
  Proof.
    intros W Hn Hp Ei L. destruct (conv_scored c n W) as [X En]. unfold only_percentage_cl. rewrite X, <- En.
    rewrite decide_False by lia. rewrite Ei. cbn [mbind option_bind]. unfold rd.
    rewrite lookup_ge_None_2 by lia. done.
  Qed.
End proofs.
