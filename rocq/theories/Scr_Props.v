(** C66: the operations on edge-popup scores. *)
From Coq Require Import Reals Lra.
From Verif Require Import Base BaseLemmas Flat_Model Flat_Spec Scr_Model Scr_Spec Scr_Proofs Scr2_Proofs.
Open Scope nat_scope.

(** Summing the scores of two models of the same shape into a third gives every score of the third
    the sum of the two scores at its place, and changes nothing else; the output may be one of the
    inputs. *)
Theorem summing_scores_adds_them_place_by_place {F} (add : F -> F -> F) a b o (h : mem F) :
  same_shape a o -> same_shape b o -> has_scores h a -> has_scores h b -> has_scores h o ->
  own_layers o -> in_step a o -> in_step b o ->
  exists h', sum_score_model add a b o h = Some h' /\ combined (fun p q _ => add p q) a b o h h'.
Proof.
  intros. destruct (op2_model_ok (sum_score add) a b o h) as (h' & E & C & _); eauto.
Qed.

(** Comparing the scores of two models gives every score of the output the larger of the two at its
    place, when both are numbers below the maximum score. *)
Theorem comparing_valid_scores_keeps_the_larger a b o (h : mem (option R)) top :
  same_shape a o -> same_shape b o -> has_scores h a -> has_scores h b -> has_scores h o ->
  own_layers o -> in_step a o -> in_step b o ->
  exists h', compare_score_model lt_nan is_real_nan (Some top) a b o h = Some h' /\
    (forall i x y z n j p q, layers_model a !! i = Some x -> layers_model b !! i = Some y ->
       layers_model o !! i = Some z -> with_scores z n -> j < n ->
       score h x j = Some (Some p) -> score h y j = Some (Some q) -> (p < top)%R -> (q < top)%R ->
       score h' z j = Some (Some (Rmax p q))) /\
    only_changes (entries ScoresOf (layers_model o)) h h'.
Proof.
  intros. destruct (op2_model_ok (compare_score lt_nan is_real_nan (Some top)) a b o h)
    as (h' & E & (C & O) & _); [done..|].
  exists h'. split; [done|]. split; [|done].
  intros i x y z n j p q Ex Ey Ez W Hj Ep Eq Lp Lq.
  destruct (C i x y z n j Ex Ey Ez W Hj) as (p' & q' & r & Ep' & Eq' & _ & Es). rewrite Es. f_equal.
  assert (p' = Some p) as -> by congruence. assert (q' = Some q) as -> by congruence.
  unfold compare_score, lt_nan, is_real_nan, Rmax.
  destruct (Rlt_dec q p), (Rlt_dec p top), (Rlt_dec q top), (Rle_dec p q); cbn; try lra; try done.
Qed.

(** "Stores in the output the best scores": it does not when the second score is NaN or not below the
    maximum.  If the second score is NaN, a valid first score is lost and the old score of the output
    stays; if it is at or above the maximum, too.  With the inputs the other way round the valid
    score is stored. *)
Theorem comparing_stores_the_best_score_refuted a b o (h : mem (option R)) top :
  same_shape a o -> same_shape b o -> has_scores h a -> has_scores h b -> has_scores h o ->
  own_layers o -> in_step a o -> in_step b o ->
  exists h', compare_score_model lt_nan is_real_nan (Some top) a b o h = Some h' /\
    forall i x y z n j p v, layers_model a !! i = Some x -> layers_model b !! i = Some y ->
       layers_model o !! i = Some z -> with_scores z n -> j < n -> (p < top)%R ->
       (v = None \/ exists q, v = Some q /\ (top <= q)%R) ->
       (score h x j = Some (Some p) -> score h y j = Some v -> score h' z j = score h z j) /\
       (score h x j = Some v -> score h y j = Some (Some p) -> score h' z j = Some (Some p)).
Proof.
  intros. destruct (op2_model_ok (compare_score lt_nan is_real_nan (Some top)) a b o h)
    as (h' & E & (C & _) & _); [done..|].
  exists h'. split; [done|].
  intros i x y z n j p v Ex Ey Ez W Hj Lp V.
  destruct (C i x y z n j Ex Ey Ez W Hj) as (p' & q' & r & Ep' & Eq' & Er & Es). rewrite Es, Er.
  split; intros Ep Eq.
  - assert (p' = Some p) as -> by congruence. assert (q' = v) as -> by congruence. f_equal.
    destruct V as [->|(q & -> & Lq)]; [done|]. unfold compare_score, lt_nan, is_real_nan.
    destruct (Rlt_dec q p), (Rlt_dec p top), (Rlt_dec q top); cbn; try lra; done.
  - assert (p' = v) as -> by congruence. assert (q' = Some p) as -> by congruence. f_equal.
    destruct V as [->|(q & -> & Lq)]; unfold compare_score, lt_nan, is_real_nan; cbn.
    + destruct (Rlt_dec p top); [done|lra].
    + destruct (Rlt_dec p q), (Rlt_dec q top), (Rlt_dec p top); cbn; try lra; done.
Qed.

(** Comparing a convolutional layer with a vector compares each of its scores with the element of
    the vector at its place. *)
Theorem comparing_a_convolution_with_a_vector {F} (lt : F -> F -> bool) real top a v o (h : mem F) n :
  with_scores (Conv a) n -> with_scores (Conv o) n ->
  allocated h (entries ScoresOf [Conv a; Conv o]) -> n <= length v ->
  exists h', compare_score_cl_with_vector lt real top a v o h = Some h' /\
    (forall j, j < n -> exists p q r, score h (Conv a) j = Some p /\ v !! j = Some q /\
       score h (Conv o) j = Some r /\ score h' (Conv o) j = Some (compare_score lt real top p q r)) /\
    only_changes (entries ScoresOf [Conv o]) h h'.
Proof.
  intros Wa Wo A L.
  assert (I : (c_at a, (Some (Val Scores), n)) ∈ entries ScoresOf [Conv a; Conv o]).
  { unfold entries. apply elem_of_list_bind. exists (Conv a). rewrite Wa. cbn. split; left. }
  assert (I' : (c_at o, (Some (Val Scores), n)) ∈ entries ScoresOf [Conv a; Conv o]).
  { unfold entries. apply elem_of_list_bind. exists (Conv o). rewrite Wo. cbn. split; [left|right; left]. }
  destruct (vector_conv lt real top a v o h n) as (h' & E & P & N); try done.
  - intros n' W'. assert (n' = n) as -> by (unfold with_scores in *; congruence). by apply A.
  - intros n' W'. assert (n' = n) as -> by (unfold with_scores in *; congruence). by apply A.
  - exists h'. split; [done|]. split; [done|]. intros a' s' X. apply N. intros [= -> ->].
    apply (X n). unfold entries. apply elem_of_list_bind. exists (Conv o). rewrite Wo. cbn. split; left.
Qed.

(** Comparing a dense layer with a vector does nothing at all, whatever the scores, the vector and
    the output; so comparing a model of dense layers with a vector does nothing. *)
Theorem comparing_dense_layers_with_a_vector_refuted {F} (lt : F -> F -> bool) real top a v o (h : mem F) :
  m_cls a = [] -> m_rls a = [] -> length (m_fcls a) = length (m_fcls o) ->
  Forall (fun f => 0 < f_in f * f_out f) (m_fcls o) ->
  compare_score_model_with_vector lt real top a v o h = Some h.
Proof. apply vector_model_dense. Qed.

(** Resetting the scores of a model, or setting them low, gives every score that value, does nothing
    for the layers without scores, and changes nothing else. *)
Theorem resetting_fills_the_scores {F} (zero low : F) m (h : mem F) :
  has_scores h m -> own_layers m -> no_other_scores h m ->
  (exists h', reset_score_model zero m h = Some h' /\ mapped (fun _ => zero) m h h') /\
  (exists h', set_low_score_model low m h = Some h' /\ mapped (fun _ => low) m h h').
Proof.
  intros H N U. split.
  - destruct (fill_model_ok zero m h H N U) as (h' & E & M & _). eauto.
  - destruct (fill_model_ok low m h H N U) as (h' & E & M & _). eauto.
Qed.

(** Averaging: every score of the output becomes (what it was + the sum of the scores of the models
    at its place) / the number given, when every layer has scores; the models are not changed. *)
Theorem averaging_adds_and_divides (k : R) o ms (h : mem R) :
  Forall (fun m => same_shape m o /\ has_scores h m /\ apart m o) ms ->
  has_scores h o -> own_layers o ->
  (forall z, z ∈ layers_model o -> exists n, with_scores z n) ->
  exists h', avaraging_score_model Rplus Rdiv k o ms h = Some h' /\
    (forall i z n j, layers_model o !! i = Some z -> with_scores z n -> j < n ->
       exists old vs, score h z j = Some old /\
         Forall2 (fun m v => exists y, layers_model m !! i = Some y /\ score h y j = Some v) ms vs /\
         score h' z j = Some ((old + total_of vs) / k)%R) /\
    only_changes (entries ScoresOf (layers_model o)) h h'.
Proof.
  intros A H N W. destruct (average_ok Rdiv Rplus k o ms h A H N W) as (h' & E & P & O).
  exists h'. split; [done|]. split; [|done].
  intros i z n j Ez Wz Hj. destruct (P i z n j Ez Wz Hj) as (r & vs & Er & V & Es).
  exists r, vs. split; [done|]. split.
  - eapply Forall2_impl; [exact V|]. intros m v Ev. cbn in Ev.
    destruct (layers_model m !! i) as [y|]; [|done]. by exists y.
  - rewrite Es. do 2 f_equal. unfold total_of. clear. revert r. induction vs as [|v vs IH]; intros r; cbn; [lra|].
    rewrite IH. lra.
Qed.

(** So the result is the average of the models only if the output had scores 0: for any other old
    score it is wrong. *)
Theorem averaging_is_the_average_refuted o ms (h h' : mem R) i z n j old :
  Forall (fun m => same_shape m o /\ has_scores h m /\ apart m o) ms ->
  has_scores h o -> own_layers o ->
  (forall z, z ∈ layers_model o -> exists n, with_scores z n) -> ms <> [] ->
  avaraging_score_model Rplus Rdiv (INR (length ms)) o ms h = Some h' ->
  layers_model o !! i = Some z -> with_scores z n -> j < n -> score h z j = Some old ->
  exists vs,
    Forall2 (fun m v => exists y, layers_model m !! i = Some y /\ score h y j = Some v) ms vs /\
    (score h' z j = Some (total_of vs / INR (length vs))%R <-> old = 0%R).
Proof.
  intros A H N W Ne E Ez Wz Hj Eo.
  destruct (averaging_adds_and_divides (INR (length ms)) o ms h A H N W) as (h1 & E1 & P & _).
  assert (h1 = h') as -> by congruence.
  destruct (P i z n j Ez Wz Hj) as (old' & vs & Eo' & V & Es). assert (old' = old) as -> by congruence.
  exists vs. split; [done|]. rewrite Es, (Forall2_length _ _ _ V).
  assert (INR (length vs) <> 0%R).
  { apply not_0_INR. rewrite <- (Forall2_length _ _ _ V). by destruct ms. }
  split.
  - intros [= X]. apply (f_equal (fun x => x * INR (length vs))%R) in X.
    unfold Rdiv in X. rewrite !Rmult_assoc, Rinv_l in X by done. lra.
  - intros ->. do 2 f_equal. lra.
Qed.

(** Dividing the scores of a model, and so averaging, is undefined when one layer, for example one
    trained by gradient descent, has no scores: the functions for the other operations skip such
    layers. *)
Theorem dividing_skips_layers_without_scores_refuted {F} (div : F -> F -> F) x m (h : mem F) z :
  z ∈ layers_model m -> without_scores z -> no_other_scores h m ->
  (match z with Dense f => 0 < f_in f * f_out f
              | Conv c => 0 < c_n c * (c_ch c * c_kr c * c_kc c) | Lstmc _ => False end) ->
  dividing_score_model div x m h = None.
Proof.
  intros Hz W U C. apply (dividing_undefined div x m h z Hz); [|by apply U].
  destruct z; [exact C|exact C|done].
Qed.

(** "Re-initialises a weight if its score is below the goodness and it is among the worst": it starts
    from the best weight and stops at the first that is good enough.  When the best weight is good
    enough nothing is re-initialised, however bad the others are. *)
Theorem the_worst_weights_are_reinitialised_refuted {F} (lt : F -> F -> bool) ix kaiming part
    percentage goodness f (h : mem F) n idx j s :
  with_scores (Dense f) n -> ix (f_at f) = Some idx -> ranks lt h (Dense f) n idx ->
  idx !! (n - 1) = Some j -> score h (Dense f) j = Some s -> lt s goodness = false ->
  reinitialize_fcl lt ix kaiming part percentage goodness f h = Some h.
Proof. intros. by eapply reinit_nothing. Qed.

(** What it does do: it walks down from the best rank while the scores are below the goodness, at most to the percentage;
    the weights it passes (a run of the best ranks) get fresh values and the goodness as score; nothing else changes. *)
Theorem reinitialising_walks_down_from_the_best {F} (lt : F -> F -> bool) ix kaiming part percentage goodness f (h : mem F) n idx lw :
  with_scores (Dense f) n -> 0 < n -> ix (f_at f) = Some idx -> allocated h (entries ScoresOf [Dense f]) -> idx ≡ₚ seq 0 n ->
  h (f_at f) (Val Weights) = Some lw -> length lw = n ->
  exists h' m, reinitialize_fcl lt ix kaiming part percentage goodness f h = Some h' /\ m <= n - 1 - part n percentage /\
    (forall i j, n - m <= i < n -> idx !! i = Some j ->
       (exists s, score h (Dense f) j = Some s /\ lt s goodness = true) /\ weight h' f j = Some (kaiming i) /\ score h' (Dense f) j = Some goodness) /\
    (forall i j, i < n - m -> idx !! i = Some j -> weight h' f j = weight h f j /\ score h' (Dense f) j = score h (Dense f) j) /\
    (m < n - 1 - part n percentage -> exists j s, idx !! (n - m - 1) = Some j /\ score h (Dense f) j = Some s /\ lt s goodness = false) /\
    (forall a s, (a, s) <> (f_at f, Val Weights) -> (a, s) <> (f_at f, Val Scores) -> h' a s = h a s).
Proof.
  intros W Hn Ei A K Ew Lw. destruct (dense_scored f n W) as [X En].
  assert (L : length idx = n). { apply Permutation_length in K. by rewrite seq_length in K. }
  assert (B : forall q, q ∈ idx -> q < length idx). { intros q Hq. rewrite K in Hq. apply elem_of_seq in Hq. lia. }
  assert (R : ready h (Dense f)).
  { intros n' W'. assert (n' = n) as -> by (unfold with_scores in *; congruence).
    apply A. unfold entries. apply elem_of_list_bind. exists (Dense f). rewrite W. cbn. split; left. }
  destruct (R n W) as (ls & Els & Lls). cbn [addr] in Els.
  destruct (reinit_ok lt kaiming f idx goodness (n - 1 - part n percentage) n h lw ls) as (h' & lw' & ls' & m & E & Ew' & Es' & Hm & P & Q & St & N); try done; try lia.
  { rewrite K. apply NoDup_seq. }
  exists h', m. split.
  { unfold reinitialize_fcl. rewrite X. cbn [negb]. rewrite <- En. destruct (n - 1 - part n percentage) as [|st] eqn:Est.
    - cbn [reinit_loop] in E. done.
    - rewrite Ei. exact E. }
  unfold weight, score. cbn [addr]. rewrite Ew', Es', Ew, Els. cbn. split_and!; try done. intros i j Hi Ej. apply (Q i j); [lia|done].
Qed.

(** The version that takes the goodness from the scores of the layer itself never re-initialises
    anything. *)
Theorem reinitialising_by_the_own_scores_refuted {F} (lt : F -> F -> bool) ix kaiming part k f
    (h : mem F) n idx :
  with_scores (Dense f) n -> 0 < n -> part n k <= n -> ix (f_at f) = Some idx ->
  allocated h (entries ScoresOf [Dense f]) -> ranks lt h (Dense f) n idx ->
  reinitialize_inner_fcl lt ix kaiming part k f h = Some h.
Proof.
  intros W Hn Hp Ei A K. eapply reinit_inner_nothing; [done..| |done].
  intros n' W'. assert (n' = n) as -> by (unfold with_scores in *; congruence).
  apply A. unfold entries. apply elem_of_list_bind. exists (Dense f). rewrite W. cbn. split; left.
Qed.

(** The version by percentage only: the weights with the lowest scores, that many of them, get fresh
    values and the score of the weight at the edge-popup threshold less a bit; nothing else
    changes. *)
Theorem the_worst_percentage_is_reinitialised {F} (lt : F -> F -> bool) ix kaiming part sub_eps
    k percentage f (h : mem F) n idx lw :
  with_scores (Dense f) n -> 0 < part n k <= n -> part n percentage <= n ->
  ix (f_at f) = Some idx -> allocated h (entries ScoresOf [Dense f]) -> ranks lt h (Dense f) n idx ->
  h (f_at f) (Val Weights) = Some lw -> length lw = n ->
  exists h' i j s, only_percentage_fcl ix kaiming part sub_eps k percentage f h = Some h' /\
    i = Nat.min (part n k) (n - 1) /\ idx !! i = Some j /\ score h (Dense f) j = Some s /\
    (forall i j, i < part n percentage -> idx !! i = Some j ->
       weight h' f j = Some (kaiming i) /\ score h' (Dense f) j = Some (sub_eps s)) /\
    (forall j, j ∉ take (part n percentage) idx ->
       weight h' f j = weight h f j /\ score h' (Dense f) j = score h (Dense f) j) /\
    (forall a s, (a, s) <> (f_at f, Val Weights) -> (a, s) <> (f_at f, Val Scores) -> h' a s = h a s).
Proof.
  intros W Hk Hp Ei A [K _] Ew Lw. apply (only_percentage_ok ix kaiming part sub_eps) with (lw := lw);
    [done|lia|done..| |done|done|done].
  intros n' W'. assert (n' = n) as -> by (unfold with_scores in *; congruence).
  apply A. unfold entries. apply elem_of_list_bind. exists (Dense f). rewrite W. cbn. split; left.
Qed.

(** The same function for convolutional layers reads outside of the indices when edge-popup uses all
    the weights (k_percentage 1, the value a layer is created with). *)
Theorem reinitialising_convolutions_refuted {F} ix kaiming part sub_eps k percentage c (h : mem F) n idx :
  with_scores (Conv c) n -> 0 < n -> part n k = n -> ix (c_at c) = Some idx -> idx ≡ₚ seq 0 n ->
  only_percentage_cl ix kaiming part sub_eps k percentage c h = None.
Proof.
  intros W Hn Hp Ei K. eapply only_percentage_cl_undefined; [done..|].
  apply Permutation_length in K. by rewrite seq_length in K.
Qed.

(** Setting the unused weights of a dense layer to zero: the weights with the lowest scores become
    zero, the others stay. *)
Theorem unused_weights_become_zero {F} (zero : F) (lt : F -> F -> bool) ix u f (h : mem F) idx lw n :
  ix (f_at f) = Some idx -> ranks lt h (Dense f) n idx ->
  h (f_at f) (Val Weights) = Some lw -> length lw = n -> u <= n ->
  exists h', unused_fcl zero ix u f h = Some h' /\
    (forall i j, i < u -> idx !! i = Some j -> weight h' f j = Some zero) /\
    (forall j, j ∉ take u idx -> weight h' f j = weight h f j) /\
    (forall a s, (a, s) <> (f_at f, Val Weights) -> h' a s = h a s).
Proof. intros Ei [K _] Ew <- Hu. by eapply unused_ok. Qed.

(** For a convolutional layer the indices are taken as numbers of kernels, though they are places of
    single weights: when one of the worst places is not also the number of a kernel, it is
    undefined. *)
Theorem unused_weights_of_convolutions_refuted {F} (zero : F) ix u c (h : mem F) idx i k :
  ix (c_at c) = Some idx -> idx ≡ₚ seq 0 (c_n c * (c_ch c * c_kr c * c_kc c)) ->
  h (c_at c) (Val (Kernel 0)) <> None -> 0 < c_ch c * c_kr c * c_kc c ->
  i < u -> idx !! i = Some k -> c_n c <= k ->
  unused_cl zero ix u c h = None.
Proof. intros Ei _ Ek Hk Hi Ej Hc. by eapply unused_cl_undefined. Qed.

(** ** The hypotheses can be met *)

(** three models of a dense layer of 2 scores and a convolution of 2 kernels of 1 weight *)
Definition small_f (a : nat) : fcl := Fcl a 2 1 false EdgeFF EdgePopup false 0.
Definition small_c (a : nat) : cl := Cl a 2 1 1 1 true EdgeFF EdgePopup false 1 0.
Definition small_m (a : nat) : model := Model [small_f a] [small_c (S a)] [Rl [small_c (S (S a))]].
Definition small_h {F} (x y : nat -> F) : mem F := fun a s =>
  match s with Val Scores => Some [x a; y a] | Val Weights | Val (Kernel _) => Some [y a; x a]
             | _ => None end.

Lemma small_entries a : entries ScoresOf (layers_model (small_m a)) =
  [(a, (Some (Val Scores), 2)); (S a, (Some (Val Scores), 2)); (S (S a), (Some (Val Scores), 2))].
Proof. reflexivity. Qed.
Lemma small_has {F} (x y : nat -> F) a : has_scores (small_h x y) (small_m a).
Proof.
  unfold has_scores. rewrite small_entries. intros b s n I.
  repeat (apply elem_of_cons in I as [[= -> -> ->]|I]; [eexists; split; [reflexivity|done]|]).
  by apply elem_of_nil in I.
Qed.
Lemma small_shape a b : same_shape (small_m a) (small_m b).
Proof. by split_and!. Qed.
Lemma small_own a : own_layers (small_m a).
Proof. unfold own_layers. cbn. repeat constructor; set_solver by lia. Qed.
Lemma small_apart a b : a + 3 <= b -> apart (small_m a) (small_m b).
Proof.
  intros L x y Hx Hy. cbn in Hx, Hy.
  repeat (apply elem_of_cons in Hx as [->|Hx]); try (by apply elem_of_nil in Hx);
    repeat (apply elem_of_cons in Hy as [->|Hy]); try (by apply elem_of_nil in Hy); cbn; lia.
Qed.
Lemma small_scored a z : z ∈ layers_model (small_m a) -> exists n, with_scores z n.
Proof.
  intros Hx. cbn in Hx.
  repeat (apply elem_of_cons in Hx as [->|Hx]); try (by apply elem_of_nil in Hx); by exists 2.
Qed.
Lemma small_none {F} (x y : nat -> F) a : no_other_scores (small_h x y) (small_m a).
Proof.
  intros z Hz W. destruct (small_scored a z Hz) as [n W']. unfold with_scores, without_scores in *. congruence.
Qed.

Example summing_is_possible :
  let h := small_h (fun a => Z.of_nat a) (fun a => Z.of_nat (2 * a)) in
  same_shape (small_m 0) (small_m 6) /\ same_shape (small_m 3) (small_m 6) /\
  has_scores h (small_m 0) /\ has_scores h (small_m 3) /\ has_scores h (small_m 6) /\
  own_layers (small_m 6) /\ in_step (small_m 0) (small_m 6) /\ in_step (small_m 6) (small_m 6) /\
  in_step (small_m 3) (small_m 6) /\
  (h' ← sum_score_model Z.add (small_m 0) (small_m 3) (small_m 6) h; h' 6 (Val Scores)) = Some [3; 6]%Z /\
  (h' ← sum_score_model Z.add (small_m 0) (small_m 3) (small_m 6) h; h' 8 (Val Scores)) = Some [7; 14]%Z /\
  (h' ← sum_score_model Z.add (small_m 6) (small_m 3) (small_m 6) h; h' 8 (Val Scores)) = Some [13; 26]%Z.
Proof.
  cbn zeta. split_and!; try reflexivity; try apply small_shape; try (by apply small_has); try (by apply small_own).
  - apply apart_in_step, small_apart. lia.
  - apply in_step_refl, small_own.
  - apply apart_in_step, small_apart. lia.
Qed.

Example averaging_is_possible :
  let h := small_h (fun a => INR a) (fun a => 1%R) in
  Forall (fun m => same_shape m (small_m 6) /\ has_scores h m /\ apart m (small_m 6)) [small_m 0; small_m 3] /\
  has_scores h (small_m 6) /\ own_layers (small_m 6) /\ no_other_scores h (small_m 6) /\
  (forall z, z ∈ layers_model (small_m 6) -> exists n, with_scores z n) /\
  score h (Dense (small_f 6)) 1 = Some 1%R.
Proof.
  cbn zeta. split_and!; try reflexivity.
  - apply list.Forall_cons; split; [split_and!; [apply small_shape|apply small_has|apply small_apart; lia]|].
    apply list.Forall_cons; split; [split_and!; [apply small_shape|apply small_has|apply small_apart; lia]|]. constructor.
  - apply small_has.
  - apply small_own.
  - apply small_none.
  - apply small_scored.
Qed.

(** a model whose second layer is trained by gradient descent *)
Example dividing_can_be_undefined :
  let f := Fcl 1 2 1 false FullyFF GradientDescent false 0 in
  let m := Model [small_f 0; f] [] [] in
  let h : mem Z := fun a s => match a, s with 0, Val Scores => Some [1; 2]%Z | _, _ => None end in
  Dense f ∈ layers_model m /\ without_scores (Dense f) /\ no_other_scores h m /\
  0 < f_in f * f_out f /\ dividing_score_model Z.div 2%Z m h = None.
Proof.
  cbn zeta. split_and!; try reflexivity.
  - right. left.
  - intros z Hz W. cbn in Hz. repeat (apply elem_of_cons in Hz as [->|Hz]); [done|done|by apply elem_of_nil in Hz].
  - cbn. lia.
Qed.

(** a layer of 3 weights with scores 5, 1, 3: ranks 1, 2, 0 *)
Definition three : fcl := Fcl 0 3 1 false EdgeFF EdgePopup false 0.
Definition three_h : mem Z := fun a s =>
  match s with Val Scores => Some [5; 1; 3]%Z | Val Weights => Some [10; 20; 30]%Z | _ => None end.
Lemma three_ranks : ranks Z.ltb three_h (Dense three) 3 [1; 2; 0].
Proof.
  split.
  - etransitivity; [apply (Permutation_cons_append [2; 0] 1)|]. cbn. 
    apply perm_trans with [0; 2; 1]; [constructor|]. constructor. constructor.
  - intros i i' j j' s s' L Ei Ei' Es Es'.
    destruct i as [|[|[|]]]; cbn in Ei; simplify_eq; destruct i' as [|[|[|]]]; cbn in Ei'; simplify_eq; try lia;
      cbn in Es, Es'; simplify_eq; reflexivity.
Qed.
Example reinitialising_is_possible :
  let ix := fun _ : nat => Some [1; 2; 0] in
  let part := fun (n : nat) (x : Z) => (n * Z.to_nat x) / 100 in
  let kaiming := fun i => (100 + Z.of_nat i)%Z in
  with_scores (Dense three) 3 /\ ranks Z.ltb three_h (Dense three) 3 [1; 2; 0] /\
  part 3 70%Z = 2 /\ part 3 40%Z = 1 /\ part 3 100%Z = 3 /\
  (* everything below 4 should go, nothing does *)
  (h' ← reinitialize_fcl Z.ltb ix kaiming part 40%Z 4%Z three three_h; h' 0 (Val Weights)) = Some [10; 20; 30]%Z /\
  (h' ← reinitialize_inner_fcl Z.ltb ix kaiming part 70%Z three three_h; h' 0 (Val Weights)) = Some [10; 20; 30]%Z /\
  (h' ← only_percentage_fcl ix kaiming part Z.pred 40%Z 70%Z three three_h; h' 0 (Val Weights)) =
    Some [10; 100; 101]%Z /\
  (h' ← unused_fcl 0%Z ix 2 three three_h; h' 0 (Val Weights)) = Some [10; 0; 0]%Z.
Proof. cbn zeta. split; [reflexivity|]. split; [apply three_ranks|]. split_and!; reflexivity. Qed.

Example convolutions_can_be_undefined :
  let ix := fun _ : nat => Some [3; 1; 0; 2] in
  let c := Cl 0 2 1 1 2 true EdgeFF EdgePopup false 1 0 in
  let h : mem Z := fun a s => match s with Val Scores => Some [0; 1; 2; 3]%Z
                                         | Val (Kernel _) => Some [5; 6]%Z | _ => None end in
  with_scores (Conv c) 4 /\ [3; 1; 0; 2] ≡ₚ seq 0 4 /\
  only_percentage_cl ix (fun _ => 7%Z) (fun n (x : Z) => n) Z.pred 100%Z 100%Z c h = None /\
  unused_cl 0%Z ix 1 c h = None.
Proof.
  cbn zeta. split_and!; try reflexivity.
  etransitivity; [apply (Permutation_cons_append [1; 0; 2] 3)|]. cbn. apply perm_swap.
Qed.

Print Assumptions summing_scores_adds_them_place_by_place.
Print Assumptions comparing_valid_scores_keeps_the_larger.
Print Assumptions comparing_stores_the_best_score_refuted.
Print Assumptions comparing_a_convolution_with_a_vector.
Print Assumptions comparing_dense_layers_with_a_vector_refuted.
Print Assumptions resetting_fills_the_scores.
Print Assumptions averaging_adds_and_divides.
Print Assumptions averaging_is_the_average_refuted.
Print Assumptions dividing_skips_layers_without_scores_refuted.
Print Assumptions the_worst_weights_are_reinitialised_refuted.
Print Assumptions reinitialising_walks_down_from_the_best.
Print Assumptions reinitialising_by_the_own_scores_refuted.
Print Assumptions the_worst_percentage_is_reinitialised.
Print Assumptions reinitialising_convolutions_refuted.
Print Assumptions unused_weights_become_zero.
Print Assumptions unused_weights_of_convolutions_refuted.
