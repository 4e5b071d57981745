(** C21: softmax is a probability distribution; its derivative functions are the exact Jacobian product. *)
From Verif Require Import NumLib Grad Softmax_Model.
Open Scope R_scope.

(** Specification: exp x_i over the sum of exp x_k of the active entries k < n. *)
Definition active_sum (act : nat -> bool) (n : nat) (f : nat -> R) : R := sumn n (fun k => if act k then f k else 0).
Definition softmax_of (act : nat -> bool) (n : nat) (x : list R) (i : nat) : R :=
  exp (el x i) / active_sum act n (fun k => exp (el x k)).
Definition everything : nat -> bool := fun _ => true.
Definition active (mask : list Z) (i : nat) : bool := negb (bool_decide (mask !! i = Some 0%Z)).

Lemma active_sum_pos act n f : (exists k, (k < n)%nat /\ act k = true) -> (forall k, 0 < f k) -> 0 < active_sum act n f.
Proof.
  intros (k & Hk & Ha) Hf. unfold active_sum. eapply Rlt_le_trans; [apply (Hf k)|].
  pose proof (sumn_ge_term n (fun k => if act k then f k else 0) k Hk) as H. cbn beta in H. rewrite Ha in H. apply H.
  intros i _. destruct (act i); [left; apply Hf|lra].
Qed.
Lemma active_sum_everything n f : active_sum everything n f = sumn n f.
Proof. done. Qed.

Lemma softmax_run input output size : (size <= length input)%nat -> (size <= length output)%nat ->
  softmax input output size = Some (imap (fun k x => if decide (k < size)%nat then softmax_of everything size input k else x) output).
Proof.
  intros Hi Ho. unfold softmax.
  rewrite (for_loop_sum size _ (fun i => exp (el input i))) by (intros; rewrite rd_el by lia; done).
  cbn [mbind option_bind]. rewrite Rplus_0_l.
  pose proof (Pointwise_loop (length output) size 0 (fun i out => x ← rd input i; wr out i (exp x / sumn size (fun i => exp (el input i))))
    (fun i _ => softmax_of everything size input i) ltac:(lia)) as H.
  rewrite H; [|intros i Hlt l Hl; rewrite rd_el by lia; cbn [mbind option_bind]; rewrite (Pointwise_wr (length output) i) by lia; done|done].
  f_equal. apply imap_ext_lt. intros k x Hk _. destruct (decide (k < size)%nat), (decide (0 <= k < 0 + size)%nat); try lia; [|done]. by rewrite Nat.sub_0_r.
Qed.

Lemma masked_run input output mask size : (size <= length input)%nat -> (size <= length output)%nat -> (size <= length mask)%nat ->
  softmax_array_not_complete input output mask size =
    Some (imap (fun k x => if decide (k < size)%nat then if active mask k then softmax_of (active mask) size input k else x else x) output).
Proof.
  intros Hi Ho Hm. unfold softmax_array_not_complete.
  assert (Ha : forall i, (i < size)%nat -> exists m, mask !! i = Some m /\ active mask i = negb (bool_decide (m = 0%Z))).
  { intros i Hlt. destruct (lookup_lt_is_Some_2 mask i ltac:(lia)) as [m E]. exists m. split; [done|]. unfold active. rewrite E. f_equal.
    apply bool_decide_ext. naive_solver. }
  rewrite (for_loop_sum size _ (fun i => if active mask i then exp (el input i) else 0)).
  2:{ intros i Hlt. destruct (Ha i Hlt) as (m & E & ->). change (rd mask i) with (mask !! i). rewrite E. cbn [mbind option_bind].
      rewrite rd_el by lia. destruct (decide (m = 0%Z)); [by rewrite bool_decide_true|by rewrite bool_decide_false]. }
  cbn [mbind option_bind]. rewrite Rplus_0_l.
  match goal with |- for_loop size 0 ?b output = _ => pose proof (Pointwise_loop (length output) size 0 b
    (fun i x => if active mask i then softmax_of (active mask) size input i else x) ltac:(lia)) as H end.
  rewrite H; [|clear H|done].
  - f_equal. apply imap_ext_lt. intros k x Hk _. destruct (decide (k < size)%nat), (decide (0 <= k < 0 + size)%nat); try lia; [|done]. by rewrite Nat.sub_0_r.
  - intros i Hlt l Hl. destruct (Ha i Hlt) as (m & E & Ea). change (rd mask i) with (mask !! i). rewrite E. cbn [mbind option_bind]. rewrite Nat.add_0_l, Ea.
    destruct (decide (m = 0%Z)).
    + rewrite bool_decide_true by done. cbn. f_equal. rewrite <- (imap_id l) at 1. apply imap_ext_lt. intros. by destruct (decide _).
    + rewrite bool_decide_false by done. cbn. rewrite rd_el by lia. cbn [mbind option_bind]. rewrite (Pointwise_wr (length output) i) by lia. done.
Qed.

Lemma softmax_of_pos act n x i : (exists k, (k < n)%nat /\ act k = true) -> 0 < softmax_of act n x i.
Proof. intros H. apply Rdiv_lt_0_compat; [apply exp_pos|]. apply active_sum_pos; [done|]. intros; apply exp_pos. Qed.
Lemma softmax_of_sum act n x : (exists k, (k < n)%nat /\ act k = true) -> active_sum act n (softmax_of act n x) = 1.
Proof.
  intros H. assert (0 < active_sum act n (fun k => exp (el x k))) by (apply active_sum_pos; [done|intros; apply exp_pos]).
  unfold softmax_of. set (S := active_sum act n (fun k => exp (el x k))) in *. unfold active_sum.
  erewrite (sumn_ext n _ (fun k => (if act k then exp (el x k) else 0) * / S)) by (intros k _; destruct (act k); unfold Rdiv; lra).
  rewrite sumn_scal_r. fold (active_sum act n (fun k => exp (el x k))). fold S. field. lra.
Qed.
Lemma softmax_of_order act n x i j : (exists k, (k < n)%nat /\ act k = true) -> el x i < el x j <-> softmax_of act n x i < softmax_of act n x j.
Proof.
  intros H. assert (0 < active_sum act n (fun k => exp (el x k))) as HS by (apply active_sum_pos; [done|intros; apply exp_pos]).
  unfold softmax_of, Rdiv. apply Rinv_0_lt_compat in HS. split; intros Hl.
  - apply Rmult_lt_compat_r; [done|]. by apply exp_increasing.
  - apply Rmult_lt_reg_r in Hl; [|done]. by apply exp_lt_inv.
Qed.

(** What a probability distribution over the active entries below n is. *)
Definition distribution (act : nat -> bool) (n : nat) (p : list R) : Prop :=
  (forall i, (i < n)%nat -> act i = true -> 0 < el p i <= 1) /\ active_sum act n (el p) = 1.

Theorem C21_softmax_is_a_distribution : forall input output size,
  (0 < size)%nat -> (size <= length input)%nat -> (size <= length output)%nat ->
  exists out, softmax input output size = Some out /\ length out = length output /\
    distribution everything size out /\
    (forall i, (i < size)%nat -> el out i = exp (el input i) / sumn size (fun k => exp (el input k))) /\
    (forall i j, (i < size)%nat -> (j < size)%nat -> el input i < el input j <-> el out i < el out j) /\
    (forall i, (size <= i)%nat -> out !! i = output !! i).
Proof.
  intros input output size Hs Hi Ho. rewrite softmax_run by done. eexists. split; [done|].
  set (out := imap _ output). assert (Hl : length out = length output) by apply imap_length.
  assert (Hex : exists k, (k < size)%nat /\ everything k = true) by (by exists 0%nat).
  assert (He : forall i, (i < size)%nat -> el out i = softmax_of everything size input i).
  { intros i Hlt. unfold out. rewrite el_imap by lia. by rewrite decide_True. }
  assert (Hsum : active_sum everything size (el out) = 1).
  { rewrite <- (softmax_of_sum everything size input Hex). unfold active_sum. apply sumn_ext. intros i Hlt. by rewrite He. }
  split; [done|]. split; [|split; [|split]].
  - split; [|done]. intros i Hlt _. split; [rewrite He by done; by apply softmax_of_pos|].
    rewrite <- Hsum. unfold active_sum, everything. apply (sumn_ge_term size (el out)); [done|]. intros k Hk. rewrite He by done. left. by apply softmax_of_pos.
  - intros i Hlt. rewrite He by done. done.
  - intros i j Hli Hlj. rewrite !He by done. by apply softmax_of_order.
  - intros i Hge. unfold out. rewrite list_lookup_imap. destruct (output !! i); [|done]. cbn. by rewrite decide_False by lia.
Qed.

Theorem C21_shift_invariant : forall input output size c, (size <= length input)%nat -> (size <= length output)%nat ->
  softmax (map (fun x => x + c) input) output size = softmax input output size.
Proof.
  intros input output size c Hi Ho. rewrite !softmax_run by (rewrite ?map_length; done). f_equal. apply imap_ext_lt. intros k x Hk _.
  destruct (decide (k < size)%nat); [|done]. unfold softmax_of, active_sum, everything.
  assert (Hm : forall i, (i < size)%nat -> el (map (fun x => x + c) input) i = el input i + c).
  { intros i Hlt. apply el_lookup. change (map ?f input) with (f <$> input). rewrite list_lookup_fmap, lookup_el by lia. done. }
  rewrite (sumn_ext size _ (fun i => exp (el input i) * exp c)) by (intros i Hlt; rewrite Hm by done; apply exp_plus).
  rewrite Hm, exp_plus, sumn_scal_r by done.
  assert (0 < sumn size (fun i => exp (el input i))) by (apply sumn_pos; [lia|]; intros; apply exp_pos).
  pose proof (exp_pos c). field. lra.
Qed.

Theorem C21_masked_softmax_is_a_distribution : forall input output mask size,
  (size <= length input)%nat -> (size <= length output)%nat -> (size <= length mask)%nat ->
  (exists k, (k < size)%nat /\ active mask k = true) ->
  exists out, softmax_array_not_complete input output mask size = Some out /\ length out = length output /\
    distribution (active mask) size out /\
    (forall i, (i < size)%nat -> active mask i = true -> el out i = softmax_of (active mask) size input i) /\
    (forall i j, (i < size)%nat -> (j < size)%nat -> active mask i = true -> active mask j = true -> el input i < el input j <-> el out i < el out j) /\
    (forall i, (size <= i)%nat \/ active mask i = false -> out !! i = output !! i).
Proof.
  intros input output mask size Hi Ho Hm Hex. rewrite masked_run by done. eexists. split; [done|].
  set (out := imap _ output). assert (Hl : length out = length output) by apply imap_length.
  assert (He : forall i, (i < size)%nat -> active mask i = true -> el out i = softmax_of (active mask) size input i).
  { intros i Hlt Ha. unfold out. rewrite el_imap by lia. by rewrite decide_True, Ha. }
  assert (Hsum : active_sum (active mask) size (el out) = 1).
  { rewrite <- (softmax_of_sum (active mask) size input Hex). unfold active_sum. apply sumn_ext. intros i Hlt. destruct (active mask i) eqn:E; [|done]. by rewrite He. }
  split; [done|]. split; [|split; [|split]].
  - split; [|done]. intros i Hlt Ha. split; [rewrite He by done; by apply softmax_of_pos|].
    rewrite <- Hsum. unfold active_sum. pose proof (sumn_ge_term size (fun k => if active mask k then el out k else 0) i Hlt) as H.
    cbn beta in H. rewrite Ha in H. apply H. intros k Hk. destruct (active mask k) eqn:E; [|lra]. rewrite He by done. left. by apply softmax_of_pos.
  - done.
  - intros i j Hli Hlj Hai Haj. rewrite !He by done. by apply softmax_of_order.
  - intros i Hge. unfold out. rewrite list_lookup_imap. destruct (output !! i); [|done]. cbn. destruct Hge as [Hge | ->].
    + by rewrite decide_False by lia.
    + by destruct (decide _).
Qed.

(** The Jacobian. *)
Lemma softmax_partial act n x e j : (j < n)%nat -> (n <= length x)%nat -> act j = true ->
  has_partial (fun x => active_sum act n (fun i => el e i * softmax_of act n x i)) x j
    (softmax_of act n x j * (el e j - active_sum act n (fun i => el e i * softmax_of act n x i))).
Proof.
  intros Hj Hn Ha. unfold has_partial.
  set (S := fun t => active_sum act n (fun k => exp (el (<[j := t]> x) k))).
  set (N := fun t => active_sum act n (fun k => el e k * exp (el (<[j := t]> x) k))).
  assert (Hd : forall i, derivable_pt_lim (fun t => exp (el (<[j := t]> x) i)) (el x j) (if decide (i = j) then exp (el x j) else 0)).
  { intros i. eapply dlim_val; [|apply dlim_comp; [apply dlim_el; lia|apply derivable_pt_lim_exp]]. rewrite upd_self.
    destruct (decide (i = j)) as [->|]; lra. }
  assert (HS : derivable_pt_lim S (el x j) (exp (el x j))).
  { unfold S, active_sum. eapply dlim_val; [|apply (dlim_sumn n (fun k t => if act k then exp (el (<[j := t]> x) k) else 0) _ (fun k => if decide (k = j) then exp (el x j) else 0))].
    - rewrite sumn_delta; done.
    - intros i Hi. destruct (act i) eqn:E; [apply Hd|]. eapply dlim_val; [|apply dlim_const]. destruct (decide (i = j)) as [->|]; [congruence|done]. }
  assert (HN : derivable_pt_lim N (el x j) (el e j * exp (el x j))).
  { unfold N, active_sum. eapply dlim_val; [|apply (dlim_sumn n (fun k t => if act k then el e k * exp (el (<[j := t]> x) k) else 0) _ (fun k => if decide (k = j) then el e k * exp (el x j) else 0))].
    - rewrite (sumn_delta n j (fun k => el e k * exp (el x j))); done.
    - intros i Hi. destruct (act i) eqn:E.
      + eapply dlim_val; [|apply dlim_scal, Hd]. destruct (decide (i = j)); lra.
      + eapply dlim_val; [|apply dlim_const]. destruct (decide (i = j)) as [->|]; [congruence|done]. }
  assert (Hpos : forall t, 0 < S t) by (intros t; apply active_sum_pos; [by exists j|intros; apply exp_pos]).
  assert (E : forall y, active_sum act n (fun i => el e i * softmax_of act n y i) = active_sum act n (fun k => el e k * exp (el y k)) / active_sum act n (fun k => exp (el y k))).
  { intros y. unfold softmax_of. set (Sy := active_sum act n (fun k => exp (el y k))). unfold active_sum.
    unfold Rdiv at 2. rewrite <- sumn_scal_r. apply sumn_ext. intros k _. destruct (act k); unfold Rdiv; lra. }
  eapply dlim_ext; [intros t; apply E|].
  eapply dlim_val; [|apply (dlim_div N S); [exact HN|exact HS|]].
  2:{ pose proof (Hpos (el x j)). lra. }
  rewrite E. unfold softmax_of. unfold N, S. rewrite upd_self. pose proof (Hpos (el x j)) as Hp. unfold S in Hp. rewrite upd_self in Hp.
  unfold Rsqr. field. lra.
Qed.

Lemma softmax_partial_inactive act n x e j : (n <= length x)%nat -> (j < n)%nat -> act j = false ->
  has_partial (fun x => active_sum act n (fun i => el e i * softmax_of act n x i)) x j 0.
Proof.
  intros Hn Hj Ha. unfold has_partial.
  eapply dlim_ext; [|apply (dlim_const (active_sum act n (fun i => el e i * softmax_of act n x i)))].
  intros t. assert (Hi : forall i, act i = true -> el (<[j := t]> x) i = el x i).
  { intros i Hai. apply el_upd_ne. intros ->. congruence. }
  unfold softmax_of. assert (active_sum act n (fun k => exp (el (<[j:=t]> x) k)) = active_sum act n (fun k => exp (el x k))) as ->.
  { unfold active_sum. apply sumn_ext. intros k _. destruct (act k) eqn:E; [by rewrite Hi|done]. }
  unfold active_sum. apply sumn_ext. intros k _. destruct (act k) eqn:E; [by rewrite Hi|done].
Qed.

Lemma jacobian_row act n s e j : (j < n)%nat -> act j = true ->
  active_sum act n (fun i => if decide (i = j) then s i * (1 - s j) * e i else - s j * s i * e i) =
  s j * (e j - active_sum act n (fun i => e i * s i)).
Proof.
  intros Hj Ha. unfold active_sum. rewrite Rmult_minus_distr_l, <- sumn_scal_l.
  rewrite (sumn_update n j _ (fun i => - (s j * (if act i then e i * s i else 0)))); [|done|].
  - rewrite decide_True by done. rewrite Ha.
    rewrite (sumn_ext n (fun i => - (s j * (if act i then e i * s i else 0))) (fun i => (-1) * (s j * (if act i then e i * s i else 0)))) by (intros; lra).
    rewrite sumn_scal_l. ring.
  - intros i Hi Hne. rewrite decide_False by done. destruct (act i); ring.
Qed.

(** derivative_softmax: called with the softmax of x, adds to output[j] the partial derivative of
    <error, softmax(x)> with respect to x_j, for every j < size; nothing else changes. *)
Theorem C21_derivative_softmax_is_the_gradient : forall x s error output size,
  (size <= length x)%nat -> (size <= length s)%nat -> (size <= length error)%nat -> (size <= length output)%nat ->
  (forall i, (i < size)%nat -> el s i = softmax_of everything size x i) ->
  exists out, derivative_softmax output s error size = Some out /\ length out = length output /\
    (forall j, (j < size)%nat -> exists d, el out j = el output j + d /\
       has_partial (fun x => sumn size (fun i => el error i * softmax_of everything size x i)) x j d) /\
    (forall j, (size <= j)%nat -> out !! j = output !! j).
Proof.
  intros x s error output size Hx Hs He Ho Hsm. unfold derivative_softmax.
  assert (Hin : forall j, (j < size)%nat -> Adds (length output) (for_loop size 0 (fun i out =>
      si ← rd s i; sj ← rd s j; e ← rd error i;
      if decide (i = j) then addat out j ((si * (1 - sj)) * e) else addat out j (- (sj * si * e))))
      (fun k => if decide (k = j) then sumn size (fun i => if decide (i = j) then el s i * (1 - el s j) * el error i else - el s j * el s i * el error i) else 0)).
  { intros j Hj. eapply Adds_ext.
    - apply (Adds_loop (length output) size _ (fun i k => if decide (k = j) then (if decide (i = j) then el s i * (1 - el s j) * el error i else - el s j * el s i * el error i) else 0)).
      intros i Hi. eapply Adds_body.
      + intros l Hl. rewrite !rd_el by lia. cbn [mbind option_bind]. instantiate (1 := fun l => addat l j (if decide (i = j) then el s i * (1 - el s j) * el error i else - el s j * el s i * el error i)).
        cbn beta. destruct (decide (i = j)); [done|]. f_equal. lra.
      + apply Adds_at. lia.
    - intros k Hk. cbn beta. destruct (decide (k = j)); [done|]. by apply sumn_0. }
  pose proof (Adds_loop (length output) size _ _ Hin) as H. eexists. split; [exact (H output eq_refl)|].
  rewrite imap_length. split; [done|]. split.
  - intros j Hj. eexists. split; [rewrite el_imap by lia; reflexivity|].
    eapply dlim_val; [|apply (softmax_partial everything size x error j Hj Hx eq_refl)].
    symmetry. match goal with |- sumn size ?g = _ => rewrite (sumn_ext size g (fun i => if decide (i = j) then sumn size (fun k => if decide (k = j) then el s k * (1 - el s j) * el error k else - el s j * el s k * el error k) else 0)) end.
    2:{ intros i Hi. cbn beta. destruct (decide (j = i)) as [->|]; [by rewrite (decide_True (P := i = i))|by rewrite (decide_False (P := i = j)) by congruence]. }
    rewrite (sumn_delta size j (fun _ => sumn size _) Hj).
    pose proof (jacobian_row everything size (el s) (el error) j Hj eq_refl) as Hr. unfold active_sum, everything in Hr. rewrite Hr.
    rewrite <- Hsm by done. do 2 f_equal. unfold active_sum, everything. apply sumn_ext. intros i Hi. rewrite Hsm by done. done.
  - intros j Hj. rewrite list_lookup_imap. destruct (output !! j); [|done]. cbn. f_equal.
    rewrite sumn_0; [lra|]. intros i Hi. by rewrite decide_False by lia.
Qed.

(** the masked version: same over the active entries; inactive ones are left alone (and have derivative 0) *)
Theorem C21_masked_derivative_is_the_gradient : forall x s error output mask size,
  (size <= length x)%nat -> (size <= length s)%nat -> (size <= length error)%nat -> (size <= length output)%nat -> (size <= length mask)%nat ->
  (forall i, (i < size)%nat -> active mask i = true -> el s i = softmax_of (active mask) size x i) ->
  exists out, derivative_softmax_array mask output s error size = Some out /\ length out = length output /\
    (forall j, (j < size)%nat -> exists d, el out j = el output j + d /\
       has_partial (fun x => active_sum (active mask) size (fun i => el error i * softmax_of (active mask) size x i)) x j d) /\
    (forall j, (size <= j)%nat -> out !! j = output !! j).
Proof.
  intros x s error output mask size Hx Hs He Ho Hm Hsm. unfold derivative_softmax_array.
  assert (Ha : forall i, (i < size)%nat -> exists m, mask !! i = Some m /\ active mask i = negb (bool_decide (m = 0%Z))).
  { intros i Hlt. destruct (lookup_lt_is_Some_2 mask i ltac:(lia)) as [m E]. exists m. split; [done|]. unfold active. rewrite E. f_equal.
    apply bool_decide_ext. naive_solver. }
  set (row := fun j => active_sum (active mask) size (fun i => if decide (i = j) then el s i * (1 - el s j) * el error i else - el s j * el s i * el error i)).
  assert (Hin : forall j, (j < size)%nat -> Adds (length output) (fun out => mj ← rd mask j;
    if decide (mj = 0%Z) then Some out else
    for_loop size 0 (fun i out =>
      mi ← rd mask i;
      if decide (mi = 0%Z) then Some out else
      si ← rd s i; sj ← rd s j; e ← rd error i;
      if decide (i = j) then addat out j ((si * (1 - sj)) * e)
      else addat out j (- sj * si * e)) out)
      (fun k => if decide (k = j) then if active mask j then row j else 0 else 0)).
  { intros j Hj. destruct (Ha j Hj) as (m & E & Ea). eapply Adds_body.
    { intros l Hl. change (rd mask j) with (mask !! j). rewrite E. cbn [mbind option_bind]. reflexivity. }
    destruct (decide (m = 0%Z)) as [Hz|Hz].
    { eapply Adds_ext; [apply Adds_id|]. intros k Hk. cbn beta. rewrite Ea, bool_decide_true by done. cbn. by destruct (decide _). }
    rewrite Ea, bool_decide_false by done. cbn [negb]. eapply Adds_ext.
    - apply (Adds_loop (length output) size _ (fun i k => if decide (k = j) then (if active mask i then (if decide (i = j) then el s i * (1 - el s j) * el error i else - el s j * el s i * el error i) else 0) else 0)).
      intros i Hi. destruct (Ha i Hi) as (mi & Ei & Eai). eapply Adds_body.
      + intros l Hl. change (rd mask i) with (mask !! i). rewrite Ei. cbn [mbind option_bind]. reflexivity.
      + rewrite Eai. destruct (decide (mi = 0%Z)).
        * rewrite bool_decide_true by done. cbn [negb]. eapply Adds_ext; [apply Adds_id|]. intros k Hk. cbn beta. by destruct (decide _).
        * rewrite bool_decide_false by done. cbn [negb]. eapply Adds_body.
          -- intros l Hl. rewrite !rd_el by lia. cbn [mbind option_bind]. instantiate (1 := fun l => addat l j (if decide (i = j) then el s i * (1 - el s j) * el error i else - el s j * el s i * el error i)).
             cbn beta. by destruct (decide (i = j)).
          -- apply Adds_at. lia.
    - intros k Hk. cbn beta. destruct (decide (k = j)); [done|]. by apply sumn_0. }
  pose proof (Adds_loop (length output) size _ _ Hin) as H. eexists. split; [exact (H output eq_refl)|].
  rewrite imap_length. split; [done|]. split.
  - intros j Hj. eexists. split; [rewrite el_imap by lia; reflexivity|].
    rewrite (sumn_ext size _ (fun i => if decide (i = j) then if active mask i then row i else 0 else 0)).
    2:{ intros i Hi. cbn beta. destruct (decide (j = i)) as [->|]; [by rewrite (decide_True (P := i = i))|by rewrite (decide_False (P := i = j)) by congruence]. }
    rewrite (sumn_delta size j (fun i => if active mask i then row i else 0) Hj).
    destruct (active mask j) eqn:Ea; [|by apply softmax_partial_inactive].
    eapply dlim_val; [|apply (softmax_partial (active mask) size x error j Hj Hx Ea)].
    unfold row. rewrite (jacobian_row (active mask) size (el s) (el error) j Hj Ea).
    rewrite <- Hsm by done. do 2 f_equal. unfold active_sum. apply sumn_ext. intros i Hi. destruct (active mask i) eqn:Ei; [|done]. by rewrite Hsm.
  - intros j Hj. rewrite list_lookup_imap. destruct (output !! j); [|done]. cbn. f_equal.
    rewrite sumn_0; [lra|]. intros i Hi. by rewrite decide_False by lia.
Qed.

(** Concrete instance: three inputs, one of them masked out. *)
Example C21_example : exists out, softmax_array_not_complete [1; 2; 3] [0; 7; 0] [1; 0; 1]%Z 3 = Some out /\
  el out 0 < el out 2 /\ out !! 1%nat = Some 7 /\ distribution (active [1; 0; 1]%Z) 3 out.
Proof.
  destruct (C21_masked_softmax_is_a_distribution [1; 2; 3] [0; 7; 0] [1; 0; 1]%Z 3) as (out & E & _ & Hd & _ & Ho & Hu); [cbn; lia..|by exists 0%nat; split; [lia|]|].
  exists out. split; [done|]. split; [|split; [|done]].
  - apply Ho; [lia..|done|done|]. unfold el. cbn. lra.
  - rewrite Hu; [done|]. by right.
Qed.

Print Assumptions C21_softmax_is_a_distribution.
Print Assumptions C21_shift_invariant.
Print Assumptions C21_derivative_softmax_is_the_gradient.
Print Assumptions C21_masked_derivative_is_the_gradient.
