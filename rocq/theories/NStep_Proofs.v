From Verif Require Import RealSum Replay_Spec NStep_Spec NStep_Model.
Open Scope nat_scope.

Section nstep.
  Context {S : Type}.
  Implicit Types xs w : list (transition S).

  Definition ring_holds (c : nat) xs (slots : list (option (transition S))) : Prop :=
    length slots = c /\ forall k o, slots !! k = Some o -> latest_in_slot c xs k o.

  Lemma ring_lookup c xs slots t : 0 < c -> ring_holds c xs slots -> t < length xs -> length xs <= t + c ->
    slots !! (t mod c) = Some (xs !! t).
  Proof.
    intros Hc [Hl H] Ht Htc. assert (t mod c < c) by (apply Nat.mod_upper_bound; lia).
    destruct (lookup_lt_is_Some_2 slots (t mod c)) as [o Ho]; [lia|]. rewrite Ho. f_equal.
    specialize (H _ _ Ho). destruct o as [x|]; cbn in H.
    - destruct H as (j & Hj & Hm & Hlast). assert (j < length xs) by by eapply lookup_lt_Some.
      assert (j = t) as ->; [|done].
      destruct (lt_eq_lt_dec j t) as [[Hlt|Heq]|Hgt]; [|done|].
      + exfalso. by apply (Hlast t); [lia|].
      + exfalso. assert (j - t < c) by lia.
        pose proof (Nat.div_mod j c ltac:(lia)) as Ej. pose proof (Nat.div_mod t c ltac:(lia)) as Et. rewrite Hm in Ej.
        assert (t / c < j / c) by nia. nia.
    - exfalso. by apply (H t).
  Qed.

  (** the loop guard lets exactly the positions t+j < length xs through *)
  Lemma ring_guard c m t j : 0 < c -> t < m -> m <= t + c -> t + j <= m -> 
    let b := t mod c in let cur := m mod c in
    let index := (b + j) mod c in
    let cyc := index <? b + j in
    ((cyc && (cur <=? index)) || ((b <? cur) && (cur <=? b + j))) = (m =? t + j).
  Proof.
    intros Hc Ht Htc Hj b cur index cyc.
    assert (Hb : b < c) by (apply Nat.mod_upper_bound; lia).
    assert (Hcur : cur < c) by (apply Nat.mod_upper_bound; lia).
    pose proof (Nat.div_mod t c ltac:(lia)) as Et. fold b in Et.
    pose proof (Nat.div_mod m c ltac:(lia)) as Em. fold cur in Em.
    set (qt := t / c) in *. set (qm := m / c) in *.
    assert (Hq : qm = qt \/ qm = qt + 1) by nia.
    assert (Hidx : index = if decide (b + j < c) then b + j else b + j - c).
    { unfold index. destruct (decide (b + j < c)); [by apply Nat.mod_small|].
      symmetry. apply (Nat.mod_unique _ _ 1); [nia|lia]. }
    unfold cyc. rewrite Hidx. clear Hidx index cyc.
    destruct (Nat.eqb_spec m (t + j)), (decide (b + j < c)); destruct Hq as [Hq|Hq]; subst qm;
    repeat match goal with
    | |- context [?a <? ?b] => destruct (Nat.ltb_spec a b)
    | |- context [?a <=? ?b] => destruct (Nat.leb_spec a b)
    end; cbn; try done; exfalso; nia.
  Qed.

  Lemma up_to_terminal_length w : length (up_to_terminal w) <= length w.
  Proof. induction w as [|x w IH]; cbn; [lia|]. destruct (nonterminal x); cbn; lia. Qed.

  Lemma discounted_nil lam : discounted lam ([] : list (transition S)) = 0%R. Proof. done. Qed.
  Lemma discounted_cons lam x w : discounted lam (x :: w) = (reward x + lam * discounted lam w)%R.
  Proof.
    unfold discounted. cbn [length]. rewrite sumn_S_l, <- sumn_scal_l. f_equal.
    - change ((x :: w) !! 0) with (Some x). change (default 0%R (reward <$> Some x)) with (reward x). rewrite pow_O. lra.
    - apply sumn_ext. intros i Hi. change ((x :: w) !! Datatypes.S i) with (w !! i). rewrite <- tech_pow_Rmult. lra.
  Qed.

  Definition last_or {A} (d : option A) (f : transition S -> A) w : option A :=
    match list.last w with Some x => Some (f x) | None => d end.

  Lemma last_or_cons {A} (d : option A) f x w : last_or d f (x :: w) = last_or (Some (f x)) f w.
  Proof. unfold last_or. rewrite last_cons. by destruct (list.last w). Qed.
  Lemma last_or_ne {A} (d d' : option A) f w : w <> [] -> last_or d f w = last_or d' f w.
  Proof. unfold last_or. intros H. destruct (list.last w) eqn:E; [done|]. by apply last_None in E. Qed.

  Lemma n_loop_ok c xs slots lam t : 0 < c -> ring_holds c xs slots -> t < length xs -> length xs <= t + c ->
    forall k j cyc lambda acc, t + j <= length xs -> (cyc = true -> c <= t mod c + j) ->
    let w := up_to_terminal (take k (drop (t + j) xs)) in
    exists l j', n_loop c (length xs mod c) slots lam (t mod c) k j cyc lambda acc =
      Some (mkN (n_reward acc + lambda * discounted lam w)%R (last_or (n_next acc) next_state w) (last_or (n_nonterminal acc) nonterminal w) l, j') /\
      ((w <> [] -> last_or None nonterminal w = Some true) -> l = if decide (w = []) then n_lambda acc else Some (lambda * lam ^ length w)%R).
  Proof.
    intros Hc HR Ht Htc. induction k as [|k IH]; intros j cyc lambda acc Hj Hcyc w.
    { unfold w. cbn. rewrite discounted_nil. do 2 eexists. split; [|done].
      destruct acc. cbn. do 2 f_equal. f_equal. lra. }
    cbn [n_loop]. pose proof (ring_guard c (length xs) t j Hc Ht Htc Hj) as HG. cbv zeta in HG.
    set (index := (t mod c + j) mod c) in *.
    assert (Hidx : index = if decide (t mod c + j < c) then t mod c + j else t mod c + j - c).
    { unfold index. destruct (decide (t mod c + j < c)); [by apply Nat.mod_small|].
      assert (t mod c < c) by (apply Nat.mod_upper_bound; lia).
      symmetry. apply (Nat.mod_unique _ _ 1); [lia|lia]. }
    assert (Hcyc' : (if negb cyc && (index <? t mod c + j) then true else cyc) = (index <? t mod c + j)).
    { destruct cyc; cbn [negb andb]; [|by destruct (_ <? _)]. symmetry. apply Nat.ltb_lt. rewrite Hidx. specialize (Hcyc eq_refl).
      destruct (decide _); lia. }
    rewrite Hcyc'.
    destruct (Nat.eqb_spec (length xs) (t + j)) as [Heq|Hne].
    - assert (Hw : w = []). { unfold w. rewrite drop_ge by lia. by rewrite take_nil. }
      rewrite Hw. exists (n_lambda acc), j. split; [|done].
      assert (Hacc : acc = mkN (n_reward acc + lambda * discounted lam ([] : list (transition S)))%R (last_or (n_next acc) next_state ([] : list (transition S))) (last_or (n_nonterminal acc) nonterminal ([] : list (transition S))) (n_lambda acc)).
      { rewrite discounted_nil. destruct acc. cbn. f_equal. lra. }
      apply orb_true_iff in HG as [HG|HG]; rewrite HG.
      + by rewrite <- Hacc.
      + destruct ((index <? t mod c + j) && (length xs mod c <=? index)); by rewrite <- Hacc.
    - apply orb_false_iff in HG as [-> ->].
      assert (Htj : t + j < length xs) by lia.
      assert (Hlk : slots !! index = Some (xs !! (t + j))).
      { rewrite <- (ring_lookup c xs slots (t + j)); [|done|done|done|lia]. f_equal. unfold index. by rewrite Nat.add_mod_idemp_l by lia. }
      destruct (lookup_lt_is_Some_2 xs (t + j) Htj) as [x Hx]. unfold rd. rewrite Hlk, Hx. cbn [mbind option_bind].
      assert (Hw : w = x :: (if nonterminal x then up_to_terminal (take k (drop (t + (j + 1)) xs)) else [])).
      { unfold w. rewrite (drop_S xs x (t + j)) by done. cbn [take up_to_terminal]. replace (Datatypes.S (t + j)) with (t + (j + 1)) by lia. done. }
      rewrite Hw. cbn [n_reward n_next n_nonterminal n_lambda].
      destruct (nonterminal x) eqn:Ent.
      + destruct (IH (j + 1) (index <? t mod c + j) (lambda * lam)%R (mkN (n_reward acc + lambda * reward x)%R (Some (next_state x)) (Some true) (Some (lambda * lam)%R)))
          as (l & j' & E & Hl).
        { lia. } { intros Hlt%Nat.ltb_lt. rewrite Hidx in Hlt. destruct (decide _); lia. }
        set (w' := up_to_terminal (take k (drop (t + (j + 1)) xs))) in *. cbn [n_reward n_next n_nonterminal n_lambda] in *.
        exists l, j'. rewrite E. split.
        * f_equal. f_equal. f_equal.
          -- rewrite discounted_cons. lra.
          -- by rewrite last_or_cons.
          -- by rewrite last_or_cons, Ent.
        * intros HT. rewrite Hl.
          -- rewrite (decide_False (P := x :: w' = [])) by done. cbn [length]. destruct (decide (w' = [])) as [E'|_]; [rewrite E'; cbn; f_equal; ring|]. f_equal. rewrite <- tech_pow_Rmult. ring.
          -- intros Hnil. specialize (HT ltac:(done)). rewrite last_or_cons in HT. by rewrite (last_or_ne _ (Some (nonterminal x))).
      + do 2 eexists. split.
        * f_equal. f_equal. f_equal; [rewrite discounted_cons, discounted_nil; lra|unfold last_or; cbn; by rewrite Ent].
        * intros HT. specialize (HT ltac:(done)). cbn in HT. rewrite Ent in HT. done.
  Qed.

  Lemma window_nonempty xs t n : t < length xs -> 0 < n -> n_step_window xs t n <> [].
  Proof.
    intros Ht Hn. destruct (lookup_lt_is_Some_2 xs t Ht) as [x Hx]. unfold n_step_window. rewrite (drop_S xs x t) by done.
    destruct n; [lia|]. cbn. done.
  Qed.

  Lemma n_step_ok c xs slots lam t n : 0 < c -> 0 < n -> ring_holds c xs slots -> t < length xs -> length xs <= t + c ->
    exists x l, list.last (n_step_window xs t n) = Some x /\
      n_step c (length xs mod c) slots lam (t mod c) n =
        Some (mkN (discounted lam (n_step_window xs t n)) (Some (next_state x)) (Some (nonterminal x)) l) /\
      (nonterminal x = true -> l = Some (lam ^ length (n_step_window xs t n))%R).
  Proof.
    intros Hc Hn HR Ht Htc.
    destruct (n_loop_ok c xs slots lam t Hc HR Ht Htc n 0 false 1%R (mkN 0%R None None None)) as (l & j' & E & Hl).
    { lia. } { done. }
    rewrite Nat.add_0_r in *. fold (n_step_window xs t n) in *.
    pose proof (window_nonempty xs t n Ht Hn) as Hne. set (w := n_step_window xs t n) in *.
    destruct (list.last w) as [x|] eqn:El; [|by apply last_None in El]. exists x, l. split; [done|].
    unfold n_step. rewrite E. cbn [mbind option_bind fst]. unfold last_or in *. rewrite El. cbn [n_next n_reward].
    split.
    - do 2 f_equal. lra.
    - intros Hnt. rewrite Hl.
      + rewrite decide_False by done. f_equal. lra.
      + intros _. rewrite El. by f_equal.
  Qed.
End nstep.
