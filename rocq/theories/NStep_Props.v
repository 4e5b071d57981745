(** C13: n-step returns. *)
From Verif Require Import RealSum OrderLemmas Replay_Spec Replay_Model Replay_Proofs NStep_Spec NStep_Model NStep_Proofs.
Open Scope nat_scope.

(** C13.  After every history of the replay buffer (any capacity, any number of transitions and wrap
    arounds), for the t-th transition stored, as long as it is still in the buffer (it is one of the
    last c), the n-step computation started at its slot returns the discounted sum over the at most n
    transitions stored from t on, cut after the first terminal one; the successor state and the
    terminal flag are those of the last transition of that window; and when that one is not terminal
    the bootstrap factor is lambda^(length of the window). *)
Theorem C13_n_step_return :
  forall (V S : Type) (ltb : V -> V -> bool) (v0 v100 : V) (c : nat) (history : list (op (transition S) V)) (r : replay) (lam : R) (t n : nat),
    strict_weak_order ltb -> 0 < c -> valid_history c 0 history ->
    run ltb v100 (init_replay v0 c) history = Some r ->
    0 < n -> t < length (added history) -> length (added history) <= t + c ->
    let w := n_step_window (added history) t n in
    exists x l, list.last w = Some x /\
      n_step (cap r) (cur r) (slots r) lam (t mod c) n = Some (mkN (discounted lam w) (Some (next_state x)) (Some (nonterminal x)) l) /\
      (nonterminal x = true -> l = Some (lam ^ length w)%R).
Proof.
  intros V S ltb v0 v100 c history r lam t n Hs Hc HV Hr Hn Ht Htc w.
  destruct (run_inv ltb Hs v100 c Hc history [] _ (inv_init ltb v0 c Hc) HV) as (r2 & E & H).
  rewrite Hr in E. injection E as <-. cbn [app] in H.
  destruct (n_step_ok c (added history) (slots r) lam t n Hc Hn) as (x & l & H1 & H2 & H3); [split; apply H|done|done|].
  exists x, l. split; [done|]. rewrite (i_cap _ _ _ _ H), (i_cur _ _ _ _ H). done.
Qed.
Print Assumptions C13_n_step_return.

(** The window is a contiguous piece of the history that starts at t and has no terminal transition before its last. *)
Theorem C13_window_is_one_episode :
  forall (S : Type) (xs : list (transition S)) (t n : nat),
    (exists rest, drop t xs = n_step_window xs t n ++ rest) /\ length (n_step_window xs t n) <= n /\
    (forall j x, n_step_window xs t n !! j = Some x -> nonterminal x = false -> j + 1 = length (n_step_window xs t n)).
Proof.
  intros S xs t n. unfold n_step_window. split_and!.
  - assert (Hp : forall w : list (transition S), exists rest, w = up_to_terminal w ++ rest).
    { induction w as [|x w [rest IH]]; [by exists []|]. cbn. destruct (nonterminal x).
      - exists rest. cbn. by f_equal.
      - by exists w. }
    destruct (Hp (take n (drop t xs))) as [rest Hr]. exists (rest ++ drop n (drop t xs)).
    by rewrite app_assoc, <- Hr, take_drop.
  - pose proof (up_to_terminal_length (take n (drop t xs))). rewrite take_length in *. lia.
  - generalize (take n (drop t xs)). induction l as [|y l IH]; intros j x; [done|]. cbn. destruct (nonterminal y) eqn:E.
    + destruct j as [|j]; cbn; [intros ? ?; simplify_eq; congruence|]. intros H1 H2. specialize (IH j x H1 H2). lia.
    + destruct j as [|j]; cbn; [done|]. done.
Qed.

(** Non-vacuity: capacity 2, three transitions (so the first is overwritten), window of two from t = 1. *)
Example C13_example :
  let h := [Add (mkTr 1%R true 1); Add (mkTr 2%R true 2); Add (mkTr 3%R false 3)] : list (op (transition nat) Z) in
  valid_history 2 0 h /\ 1 < length (added h) /\ length (added h) <= 1 + 2 /\
  n_step_window (added h) 1 5 = [mkTr 2%R true 2; mkTr 3%R false 3].
Proof. cbn. split_and!; done || lia. Qed.
