(** C75: policy gradients *)
From Verif Require Import NumLib Grad Deriv BaseLemmas Softmax_Model Softmax_Props Iq_Model Iq_Proofs Vae_Proofs Pg_Model Pg_Spec Pg_Proofs.
From Coq Require Import Reals Lia Lra.
Open Scope nat_scope.

(** ** Sampling *)
(** Whatever the scores, the temperature and the random number are, the action drawn is action 0: an action k > 0 is not drawn for
    any of the random numbers that belong to it, *)
Theorem sampling_refuted input T n r k : 2 <= n -> length input = n -> (0 < T)%R -> (0 <= r <= 1)%R -> drawn n (policy T n input) r k -> k <> 0 ->
  ∃ input', sample input T n r = Some (0%Z, input').
Proof. intros Hn Hl HT Hr _ _. destruct (sample_ok input T n r Hn Hl (proj1 Hr)) as (t & E & _). by exists t. Qed.
(** although every action has such random numbers. *)
Theorem every_action_has_numbers T n z k : 2 <= n -> (0 < T)%R -> k < n -> ∃ r, (0 <= r < 1)%R /\ drawn n (policy T n z) r k.
Proof.
  intros Hn HT Hk. exists (sumn k (policy T n z)).
  assert (Hge : ∀ m, (0 <= sumn m (policy T n z))%R). { induction m as [|m IH]; cbn [sumn]; [lra|]. pose proof (policy_pos T n z m ltac:(lia)). lra. }
  assert (Hle : ∀ m d, (sumn m (policy T n z) <= sumn (m + d) (policy T n z))%R).
  { intros m d. induction d as [|d IH]; [rewrite Nat.add_0_r; lra|]. rewrite Nat.add_succ_r. cbn [sumn]. pose proof (policy_pos T n z (m + d) ltac:(lia)). lra. }
  pose proof (policy_pos T n z k ltac:(lia)) as Hp. specialize (Hle (S k) (n - S k)). replace (S k + (n - S k)) with n in Hle by lia. rewrite policy_sum in Hle by lia. cbn [sumn] in Hle.
  split; [split; [apply Hge|lra]|]. split; [done|]. cbn [sumn]. lra.
Qed.
(** Sampling divides the scores it is given - the output of the network - by the temperature, so a second call samples with another temperature. *)
Theorem sampling_changes_scores input T n r : 2 <= n -> length input = n -> (0 < T)%R -> (0 <= r <= 1)%R ->
  ∃ input', sample input T n r = Some (0%Z, input') /\ length input' = n /\
    (∀ i, i < n -> el input' i = (el input i / T)%R) /\ ∀ k, k < n -> policy T n input' k = policy (T * T) n input k.
Proof.
  intros Hn Hl HT Hr. destruct (sample_ok input T n r Hn Hl (proj1 Hr)) as (t & E & L & H). exists t. repeat split; try done.
  assert (Hd : ∀ i, i < n -> (el t i / T = el input i / (T * T))%R) by (intros i Hi; rewrite H by done; field; lra).
  intros k Hk. unfold policy. rewrite Hd by done. f_equal. apply sumn_ext. intros i Hi. by rewrite Hd.
Qed.
(** With one action, the action drawn is 1 - there is no such action - unless rand() is RAND_MAX. *)
Theorem sampling_one_action_refuted input T r : length input = 1 -> (r < 1)%R -> ∃ input', sample input T 1 r = Some (1%Z, input').
Proof. intros Hl Hr. destruct (sample_one input T r Hl) as (t & E). exists t. rewrite E. by rewrite decide_False by lra. Qed.
Example sampling_instance : drawn 2 (policy 1 2 [0; 0]%R) (3 / 4) 1 /\ ∃ t, sample [0; 0]%R 1 2 (3 / 4) = Some (0%Z, t).
Proof.
  assert (Hd : drawn 2 (policy 1 2 [0; 0]%R) (3 / 4) 1).
  { split; [lia|]. unfold policy. cbn [sumn]. unfold el; cbn [nth]. rewrite !Rplus_0_l. pose proof (exp_pos (0 / 1)). replace (exp (0 / 1) / (exp (0 / 1) + exp (0 / 1)))%R with (1 / 2)%R by (field; lra). lra. }
  split; [done|]. apply (sampling_refuted _ _ _ _ 1); try done; lra || lia.
Qed.

(** ** The error *)
(** The error is the gradient, with respect to the output of the network, of
    - sum alpha_k log q_k + th1 H(q) - th2 |q - q'|, where q is the policy of the output, q' that of the other network, H the entropy. *)
Definition loss (T : R) (n : nat) (alpha : nat -> R) (th1 th2 : R) (other : option vec) (z : vec) : R :=
  (reward_loss n alpha (policy T n z) + (Rmax 0 th1 * entropy n (policy T n z)
    - Rmax 0 th2 * match other with Some o => distance n (policy T n z) (policy T n o) | None => 0 end))%R.
Theorem policy_error_is_gradient out other alpha th1 th2 T n : (0 < T)%R -> 2 <= n -> n <= length out -> n <= length alpha ->
  ((0 < th2)%R -> ∃ o, other = Some o /\ n <= length o /\ (0 < distance n (policy T n out) (policy T n o))%R) ->
  ∃ err, policy_error out other alpha (replicate n 0%R) th1 th2 T n = Some err /\ length err = n /\
    ∀ j, j < n -> has_partial (loss T n (el alpha) th1 th2 other) out j (el err j).
Proof.
  intros HT Hn Lo La Ho. destruct (policy_error_run out other alpha th1 th2 T n ltac:(lra) Hn Lo La Ho) as (err & E & L & H). exists err. split; [done|]. split; [done|].
  intros j Hj. rewrite H by done. unfold wrt_policy. rewrite !chain_plus, !chain_scal. unfold loss, has_partial.
  assert (M : ∀ x, Rmax 0 x = (if decide (0 < x) then x else 0)%R). { intros x. destruct (decide (0 < x)%R); [apply Rmax_right|apply Rmax_left]; lra. }
  apply dlim_plus; [apply reward_partial; lra || lia|]. rewrite !M. apply (dlim_plus _ (λ t, - _)%R).
  { apply dlim_scal, entropy_partial; lra || lia. }
  destruct (decide (0 < th2)%R) as [H2|H2].
  - destruct (Ho H2) as (o & -> & Lo2 & Hd). cbn [default].
    eapply dlim_ext. { intros t. instantiate (1 := λ t, (- th2 * distance n (policy T n (<[j:=t]> out)) (policy T n o))%R). cbn beta. ring. }
    apply dlim_scal, distance_partial; lra || lia || done.
  - eapply dlim_val; [|eapply dlim_ext; [|apply (dlim_const 0)]]; [lra|]. intros t. cbn beta. ring.
Qed.
(** With the alpha of an action, the first part is minus the reward times the logarithm of the probability of the action. *)
Theorem reward_loss_of_action n a r q : a < n -> reward_loss n (λ k, if decide (Z.of_nat a = Z.of_nat k) then r else 0%R) q = (- (r * ln (q a)))%R.
Proof.
  intros Ha. unfold reward_loss. f_equal. rewrite (sumn_ext n _ (λ k, if decide (k = a) then r * ln (q k) else 0)%R).
  - by apply (sumn_delta n a (λ k, r * ln (q k))%R).
  - intros k _. destruct (decide (k = a)) as [->|]; [by rewrite decide_True|]. rewrite decide_False by lia. lra.
Qed.
(** The entropy is not rewarded but punished: with no reward and only the entropy term, the error is th1 times the gradient of the entropy, so
    a step against the error - which is what training does - lowers the entropy wherever it can change at all. *)
Theorem entropy_sign_refuted out n th1 T : (0 < T)%R -> 2 <= n -> n <= length out -> (0 < th1)%R ->
  ∃ err, policy_error out None (replicate n 0%R) (replicate n 0%R) th1 0 T n = Some err /\ length err = n /\
    ∀ j d, j < n -> has_partial (λ z, entropy n (policy T n z)) out j d -> el err j = (th1 * d)%R /\ (d <> 0 -> d * - el err j < 0)%R.
Proof.
  intros HT Hn Lo H1. destruct (policy_error_run out None (replicate n 0%R) th1 0 T n) as (err & E & L & H); [lra|done|done|rewrite replicate_length; lia|lra|].
  exists err. split; [done|]. split; [done|]. intros j d Hj Hd.
  rewrite (dlim_unique _ _ _ _ Hd (entropy_partial T n out j ltac:(lra) ltac:(lia) Lo Hj)).
  assert (Ee : el err j = (th1 * chain T n out (λ k, - (1 + ln (policy T n out k))) j)%R).
  { rewrite H by done. rewrite <- chain_scal. apply chain_ext; [done|]. intros i Hi. unfold wrt_policy. rewrite (decide_True (P := (0 < th1)%R)) by done. rewrite (decide_False (P := (0 < 0)%R)) by lra.
    assert (E0 : el (replicate n 0%R) i = 0%R) by (apply el_lookup, lookup_replicate; done). rewrite E0. lra. }
  split; [done|]. intros Hne. rewrite Ee. set (x := chain _ _ _ _ _) in *. assert (0 < x * x)%R by nra. nra.
Qed.
(** Two actions with different scores: the entropy can change. *)
Example entropy_instance : ¬ has_partial (λ z, entropy 2 (policy 1 2 z)) [0; 1]%R 0 0.
Proof.
  intros Hd. pose proof (dlim_unique _ _ _ _ Hd (entropy_partial 1 2 [0; 1]%R 0 ltac:(lra) ltac:(lia) ltac:(cbn; lia) ltac:(lia))) as E.
  unfold chain in E. cbn [sumn] in E. pose proof (policy_sum 1 2 [0; 1]%R ltac:(lia)) as Hs. cbn [sumn] in Hs.
  pose proof (policy_pos 1 2 [0; 1]%R 0 ltac:(lia)) as Hp. pose proof (policy_pos 1 2 [0; 1]%R 1 ltac:(lia)) as Hp1.
  assert (Hlt : (policy 1 2 [0; 1]%R 0 < policy 1 2 [0; 1]%R 1)%R).
  { unfold policy. apply Rmult_lt_compat_r; [apply Rinv_0_lt_compat, policy_sum_pos; lia|]. apply exp_increasing. unfold el. cbn. lra. }
  set (a := policy 1 2 [0; 1]%R 0) in *. set (b := policy 1 2 [0; 1]%R 1) in *.
  assert (Hln : (ln a < ln b)%R) by (apply ln_increasing; lra). assert (Hb : (b = 1 - a)%R) by lra. rewrite Hb in *.
  assert (E2 : (a * (1 - a) * (ln (1 - a) - ln a) = 0)%R) by lra.
  assert (0 < a * (1 - a) * (ln (1 - a) - ln a))%R by (apply Rmult_lt_0_compat; [apply Rmult_lt_0_compat|]; lra). lra.
Qed.
(** A network with one output reads past its probabilities (to print two of them); without the other network the diversity term reads a null pointer. *)
Theorem policy_error_undefined_refuted out alpha error0 th1 th2 T :
  (∀ other, policy_error out other alpha error0 th1 th2 T 1 = None) /\ (∀ n, (0 < th2)%R -> policy_error out None alpha error0 th1 th2 T n = None).
Proof.
  split.
  - intros other. unfold policy_error. cbv zeta.
    assert (Hm : ∀ a t v, mul_value a v (replicate 1 0%R) 1 = Some t -> length t = 1). { intros a t v. unfold mul_value. cbn. destruct (rd a 0); [|done]. cbn. intros [= <-]. done. }
    assert (Hs : ∀ t q, softmax t (replicate 1 0%R) 1 = Some q -> length q = 1). { intros t q. unfold softmax. cbn. destruct (rd t 0); [|done]. cbn. intros [= <-]. done. }
    match goal with |- (?X ≫= _) = None => destruct X end; cbn [mbind option_bind]; [|done].
    destruct (mul_value out _ _ _) as [t|]; cbn [mbind option_bind]; [|done]. destruct (softmax t _ _) as [q|] eqn:E; cbn [mbind option_bind]; [|done].
    apply Hs in E. destruct q as [|x [|]]; try done.
  - intros n Hp. unfold policy_error. cbv zeta. rewrite (decide_True (P := (0 < th2)%R)) by done. done.
Qed.

(** ** Training *)
Section training.
  Context {P G O : Type} (g0 : G) (gadd : G -> G -> G) (fwd : P -> vec -> vec) (bwd : P -> vec -> vec -> G) (clip : R -> P -> G -> G) (upd : O -> nat -> P -> G -> P) (next : O -> O).

  (** A training passage without clipping: for every state the gradient of its loss is propagated back once, the sums go into one update, and the derivatives are cleared;
      the number of threads does not matter. *)
  Theorem training_passage_ok (c : pg) p g o states rewards actions dde len bs : (∀ x, gadd g0 x = x) ->
    1 <= threads c -> 2 <= outdim c -> (0 < temperature c)%R -> clipping c = false ->
    len <= length states -> len <= length rewards -> len <= length actions -> (∀ s, length (fwd p s) = outdim c) ->
    (∀ l, dde = Some l -> len <= length l) ->
    ((0 < th2 c)%R -> ∃ l, dde = Some l /\ ∀ i s x, i < len -> states !! i = Some s -> l !! i = Some x -> outdim c <= length x /\
       (0 < distance (outdim c) (policy (temperature c) (outdim c) (fwd p s)) (policy (temperature c) (outdim c) x))%R) ->
    ∃ err : nat -> vec,
      (∀ i j s, i < len -> states !! i = Some s -> j < outdim c ->
         has_partial (loss (temperature c) (outdim c) (λ k, if decide (nth i actions 0%Z = Z.of_nat k) then el rewards i else 0%R) (th1 c) (th2 c) (l ← dde; l !! i)) (fwd p s) j (el (err i) j)) /\
      training_passage g0 gadd fwd bwd clip upd next c p g o states rewards actions dde len bs
        = Some (upd o bs p (fold_left (λ g i, gadd g (bwd p (nth i states []) (err i))) (seq 0 len) g), g0, next o).
  Proof.
    intros Hu HT Hn Htemp Hc Ls Lr La Lf Ld H2.
    assert (Hone : ∀ i, i < len -> ∃ e, one fwd bwd c p states rewards actions dde i = Some (bwd p (nth i states []) e) /\ length e = outdim c /\
      ∀ j s, states !! i = Some s -> j < outdim c -> has_partial (loss (temperature c) (outdim c) (λ k, if decide (nth i actions 0%Z = Z.of_nat k) then el rewards i else 0%R) (th1 c) (th2 c) (l ← dde; l !! i)) (fwd p s) j (el e j)).
    { intros i Hi. unfold one.
      assert (Ho : match dde with None => Some None | Some l => x ← rd l i; Some (Some x) end = Some (l ← dde; l !! i)).
      { destruct dde as [l|]; [|done]. cbn [mbind option_bind]. destruct (lookup_lt_is_Some_2 l i) as [x Hx]; [specialize (Ld l eq_refl); lia|]. rewrite (rd_lookup _ _ _ Hx). cbn. by rewrite Hx. }
      rewrite Ho. cbn [mbind option_bind]. rewrite (rd_nth actions i 0%Z) by lia. cbn [mbind option_bind]. rewrite (rd_el rewards i) by lia. cbn [mbind option_bind].
      rewrite (rd_nth states i []) by lia. cbn [mbind option_bind].
      destruct (set_alpha_ok (outdim c) (nth i actions 0%Z) (el rewards i)) as (alpha & Ea & Lal & Hal). rewrite Ea. cbn [mbind option_bind].
      assert (Hs : states !! i = Some (nth i states [])) by (rewrite <- (rd_nth states i []) by lia; done).
      destruct (policy_error_is_gradient (fwd p (nth i states [])) (l ← dde; l !! i) alpha (th1 c) (th2 c) (temperature c) (outdim c)) as (e & Ee & Le & He); [done|done|rewrite Lf; lia|lia| |].
      { intros Hp. destruct (H2 Hp) as (l & -> & Hl). cbn [mbind option_bind]. destruct (lookup_lt_is_Some_2 l i) as [x Hx]; [specialize (Ld l eq_refl); lia|].
        exists x. split; [done|]. by apply (Hl i). }
      rewrite Ee. cbn [mbind option_bind]. exists e. split; [done|]. split; [done|]. intros j s Hs' Hj. rewrite Hs in Hs'. injection Hs' as <-.
      eapply dlim_ext; [|apply He; done]. intros t. unfold loss. f_equal. unfold reward_loss. f_equal. apply sumn_ext. intros k Hk. by rewrite Hal. }
    assert (Herr : ∃ err : nat -> vec, ∀ i, i < len -> one fwd bwd c p states rewards actions dde i = Some (bwd p (nth i states []) (err i)) /\
      ∀ j s, states !! i = Some s -> j < outdim c -> has_partial (loss (temperature c) (outdim c) (λ k, if decide (nth i actions 0%Z = Z.of_nat k) then el rewards i else 0%R) (th1 c) (th2 c) (l ← dde; l !! i)) (fwd p s) j (el (err i) j)).
    { clear - Hone. induction len as [|m IH].
      - exists (λ _, []). intros i Hi. lia.
      - destruct IH as [err Herr]; [intros i Hi; apply Hone; lia|]. destruct (Hone m ltac:(lia)) as (e & E & _ & He). exists (λ i, if decide (i = m) then e else err i).
        intros i Hi. destruct (decide (i = m)) as [->|]; [done|]. apply Herr. lia. }
    destruct Herr as [err Herr]. exists err. split; [intros i j s Hi; by apply Herr|]. unfold training_passage. rewrite passage_loop by done.
    rewrite (each_fold _ (λ i g, gadd g (bwd p (nth i states []) (err i)))).
    - cbn [mbind option_bind]. by rewrite Hc.
    - intros z a Hz. apply elem_of_seq in Hz. unfold add_one. destruct (Herr z ltac:(lia)) as [-> _]. done.
  Qed.
  (** With clipping on, a structure made by the constructor reads a clipping value that was never stored. *)
  Theorem clipping_value_refuted p g o states rewards actions dde len bs batch_size threads value T ef ea df da outdim :
    training_passage g0 gadd fwd bwd clip upd next (init_policy_gradient batch_size threads true value T ef ea df da outdim) p g o states rewards actions dde len bs = None.
  Proof. unfold training_passage. destruct (group_loop _ _ _ _ _ _); done. Qed.

  (** ** The policies *)
  (** One thread: the outputs of the network (not the policies) for each input, if there are at most as many outputs as inputs; otherwise the buffers are too small. *)
  Theorem get_policies_one (c : pg) p input_size inputs size : threads c = 1 -> outdim c <= input_size -> length inputs = size -> (∀ s, length (fwd p s) = outdim c) ->
    ∃ ps, get_policies fwd c p input_size inputs size = Some ps /\ length ps = size /\
      ∀ i x, inputs !! i = Some x -> ps !! i = Some (fwd p x ++ replicate (input_size - outdim c) 0%R).
  Proof.
    intros HT Ho Li Lf. unfold get_policies. rewrite HT. replace ((size + 1 - 1) / 1) with size by (rewrite Nat.div_1_r; lia).
    destruct (rows_loop (replicate size (replicate input_size 0%R)) size (λ b ps,
      let i := b * 1 in let m := Nat.min 1 (size - i) in
      if decide (1 = 1) then x ← rd inputs i; q ← rd ps i; q ← copy (fwd p x) q (outdim c); wr ps i q
      else for_loop m 0 (λ j ps, x ← rd inputs (i + j); q ← rd ps (i + j); q ← copy x q (outdim c); ps ← wr ps (i + j) q;
          if decide (i < 1) then Some ps else None) ps) (λ i, fwd p (nth i inputs []) ++ replicate (input_size - outdim c) 0%R) (replicate input_size 0%R)) as (l & E & L & H).
    - rewrite replicate_length. lia.
    - intros i Hi. by apply lookup_replicate_2.
    - intros i l Hi Hl Hz. cbv zeta. rewrite decide_True by done. rewrite Nat.mul_1_r, (rd_nth inputs i []) by lia. cbn [mbind option_bind]. rewrite (rd_lookup _ _ _ Hz). cbn [mbind option_bind].
      rewrite copy_ok by (rewrite ?Lf, ?replicate_length; lia). cbn [mbind option_bind]. rewrite wr_Some by (rewrite Hl, replicate_length; lia).
      rewrite drop_replicate, take_ge by (rewrite Lf; lia). done.
    - exists l. split; [exact E|]. rewrite replicate_length in L. split; [done|]. intros i x Hx. pose proof (lookup_lt_Some _ _ _ Hx). rewrite H by lia. by rewrite (nth_lookup_Some _ _ [] _ Hx).
  Qed.
  Theorem get_policies_one_refuted (c : pg) p input_size inputs size : threads c = 1 -> input_size < outdim c -> 1 <= size ->
    get_policies fwd c p input_size inputs size = None.
  Proof.
    intros HT Ho Hs. unfold get_policies. rewrite HT. replace ((size + 1 - 1) / 1) with size by (rewrite Nat.div_1_r; lia). destruct size as [|size]; [lia|]. cbn [for_loop replicate]. cbn [Nat.mul].
    rewrite decide_True by done. destruct (rd inputs 0) as [x|]; cbn [mbind option_bind]; [|done]. cbn [rd]. change (rd (replicate input_size 0%R :: replicate size (replicate input_size 0%R)) 0) with (Some (replicate input_size 0%R)). cbn [mbind option_bind].
    by rewrite copy_none by (rewrite replicate_length; lia).
  Qed.
  (** Several threads: the beginnings of the inputs themselves instead of outputs; and with more inputs than threads, an access outside the array of networks. *)
  Theorem get_policies_threads_refuted (c : pg) p input_size inputs size : 2 <= threads c -> outdim c <= input_size -> length inputs = size -> (∀ x, x ∈ inputs -> length x = input_size) ->
    (size <= threads c -> ∃ ps, get_policies fwd c p input_size inputs size = Some ps /\ length ps = size /\
      ∀ i x, inputs !! i = Some x -> ps !! i = Some (take (outdim c) x ++ replicate (input_size - outdim c) 0%R)) /\
    (threads c < size -> get_policies fwd c p input_size inputs size = None).
  Proof.
    intros HT Ho Li Lx. unfold get_policies. split; intros Hs.
    - destruct (decide (size = 0)) as [->|Hs0].
      { exists []. rewrite Nat.div_small by lia. split; [done|]. split; [done|]. intros i x Hx. apply lookup_lt_Some in Hx. lia. }
      replace ((size + threads c - 1) / threads c) with 1.
      2:{ apply (Nat.div_unique _ _ 1 (size - 1)); lia. }
      cbn [for_loop Nat.mul]. rewrite decide_False by lia. rewrite Nat.sub_0_r, Nat.min_r by lia.
      destruct (rows_loop (replicate size (replicate input_size 0%R)) size (λ j ps, x ← rd inputs (0 + j); q ← rd ps (0 + j); q ← copy x q (outdim c); ps ← wr ps (0 + j) q; if decide (0 < threads c) then Some ps else None)
        (λ i, take (outdim c) (nth i inputs []) ++ replicate (input_size - outdim c) 0%R) (replicate input_size 0%R)) as (l & E & L & H).
      + rewrite replicate_length. lia.
      + intros i Hi. by apply lookup_replicate_2.
      + intros i l Hi Hl Hz. rewrite Nat.add_0_l, (rd_nth inputs i []) by lia. cbn [mbind option_bind]. rewrite (rd_lookup _ _ _ Hz). cbn [mbind option_bind].
        assert (Hx : length (nth i inputs []) = input_size). { apply Lx. apply elem_of_list_lookup_2 with i. change (inputs !! i) with (rd inputs i). apply rd_nth. lia. }
        rewrite copy_ok by (rewrite ?Hx, ?replicate_length; lia). cbn [mbind option_bind]. rewrite wr_Some by (rewrite Hl, replicate_length; lia).
        cbn [mbind option_bind]. rewrite (decide_True (P := 0 < threads c)) by lia. by rewrite drop_replicate.
      + exists l. rewrite E. cbn [mbind option_bind]. split; [done|]. rewrite replicate_length in L. split; [done|]. intros i x Hx. pose proof (lookup_lt_Some _ _ _ Hx). rewrite H by lia. by rewrite (nth_lookup_Some _ _ [] _ Hx).
    - assert (Hk : ∃ k, (size + threads c - 1) / threads c = S (S k)).
      { assert (2 <= (size + threads c - 1) / threads c) by (apply Nat.div_le_lower_bound; lia). exists ((size + threads c - 1) / threads c - 2). lia. }
      destruct Hk as [k ->]. cbn [for_loop]. match goal with |- (?X ≫= _) = None => destruct X as [ps|] end; cbn [mbind option_bind]; [|done].
      rewrite decide_False by lia. replace (threads c `min` (size - 1 * threads c)) with (S (threads c `min` (size - 1 * threads c) - 1)) by lia. cbn [for_loop].
      destruct (rd inputs _); cbn [mbind option_bind]; [|done]. destruct (rd ps _); cbn [mbind option_bind]; [|done]. destruct (copy _ _ _); cbn [mbind option_bind]; [|done].
      destruct (wr _ _ _); cbn [mbind option_bind]; [|done]. by rewrite decide_False by lia.
  Qed.
End training.

(** Instances: a network that returns its input, two actions, two threads. *)
Example training_instance :
  let c := init_policy_gradient 2 2 false 0 1 true (1 / 10) false 0 2 in
  1 <= threads c /\ 2 <= outdim c /\ (0 < temperature c)%R /\ clipping c = false /\ ¬ (0 < th2 c)%R.
Proof. cbn. rewrite decide_False by lia. repeat split; try lia; try lra; done. Qed.
Example get_policies_instance :
  get_policies (λ (_ : unit) x, (λ a, a + 1)%R <$> x) (mkPg 2 2 false None 1 0 0 2) tt 2 [[1; 2]; [3; 4]]%R 2 = Some [[1; 2]; [3; 4]]%R.
Proof. reflexivity. Qed.

Print Assumptions sampling_refuted.
Print Assumptions every_action_has_numbers.
Print Assumptions sampling_changes_scores.
Print Assumptions sampling_one_action_refuted.
Print Assumptions policy_error_is_gradient.
Print Assumptions reward_loss_of_action.
Print Assumptions entropy_sign_refuted.
Print Assumptions policy_error_undefined_refuted.
Print Assumptions training_passage_ok.
Print Assumptions clipping_value_refuted.
Print Assumptions get_policies_one.
Print Assumptions get_policies_one_refuted.
Print Assumptions get_policies_threads_refuted.
