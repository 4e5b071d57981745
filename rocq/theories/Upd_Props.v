(** C50 (one optimizer step per trainable parameter and update) and C46 (L2 penalty) *)
From Verif Require Import NumLib NumLib2 Optim_Model Upd_Model Upd_Spec Upd_Proofs Upd_Layers Upd_L2.
Open Scope nat_scope.

(** One update of a fully connected layer by any of the optimizers steps every trainable entry exactly once, with its own
    gradient and buffers, and touches nothing else.  Adaptive optimizers: the mini-batch mean for all of them *)
Theorem C50_fcl St (step : nat -> R -> R -> St -> R * St) mini f s :
  sized (fcl_trains f) (fcl_sizes f) s ->
  (exists s', update_fcl_adaptive step mini f s = Some s' /\ stepped step (minis mini mini) (fun nm _ => if fcl_trains f nm then 1 else 0) s s') /\
  (exists s', update_fcl_nesterov step mini f s = Some s' /\ stepped step (minis mini 1) (fun nm _ => if fcl_trains f nm then 1 else 0) s s').
Proof.
  intros Hs. split.
  - destruct (Steps_fcl step (minis mini mini) (fcl_trains f) (fcl_sizes f) mini mini f ltac:(done) ltac:(done) ltac:(done) s Hs) as (s' & E & _ & P). eauto.
  - destruct (Steps_fcl step (minis mini 1) (fcl_trains f) (fcl_sizes f) mini 1 f ltac:(done) ltac:(done) ltac:(done) s Hs) as (s' & E & _ & P). eauto.
Qed.

(** Convolutional layers: kernels, biases and scores once; the group-normalization parameters once per kernel *)
Theorem C50_conv St (step : nat -> R -> R -> St -> R * St) mini c s :
  sized (cl_trains c) (cl_sizes c) s ->
  (exists s', update_cl_adaptive step mini c s = Some s' /\ stepped step (minis mini mini) (fun nm _ => cl_steps (cv_kernels c) c nm) s s') /\
  (exists s', update_cl_nesterov step mini c s = Some s' /\ stepped step (minis mini 1) (fun nm _ => cl_steps (cv_kernels c) c nm) s s').
Proof.
  intros Hs. split.
  - destruct (Steps_cl step (minis mini mini) (cl_trains c) (cl_sizes c) mini mini c ltac:(done) ltac:(done) ltac:(done) s Hs) as (s' & E & _ & P). eauto.
  - destruct (Steps_cl step (minis mini 1) (cl_trains c) (cl_sizes c) mini 1 c ltac:(done) ltac:(done) ltac:(done) s Hs) as (s' & E & _ & P). eauto.
Qed.
(** without trainable group normalization: exactly once *)
Theorem C50_conv_once St (step : nat -> R -> R -> St -> R * St) mini c s :
  sized (cl_trains c) (cl_sizes c) s -> (forall b, group_trains (cv_group c) b = false) ->
  exists s', update_cl_adaptive step mini c s = Some s' /\ stepped step (minis mini mini) (fun nm _ => if cl_trains c nm then 1 else 0) s s'.
Proof.
  intros Hs Hg. destruct (C50_conv St step mini c s Hs) as ((s' & E & G & P) & _). exists s'. split; [done|]. split; [done|].
  intros nm i. specialize (P nm i). replace (if cl_trains c nm then 1 else 0) with (cl_steps (cv_kernels c) c nm); [done|].
  unfold cl_steps. destruct (cl_trains c nm) eqn:T; [|done]. destruct nm; try done; unfold cl_trains in T; rewrite Hg in T; by rewrite !andb_false_r in T.
Qed.

(** LSTM layers with adam, radam and diff-grad: exactly once in the modes GRADIENT_DESCENT and EDGE_POPUP; a layer in mode
    FREEZE_BIASES is not trained at all *)
Theorem C50_lstm St (step : nat -> R -> R -> St -> R * St) mini l s :
  sized (lstm_trains l) (lstm_sizes l) s ->
  exists s', update_lstm step mini l s = Some s' /\ stepped step (fun _ => mini) (fun nm _ => if lstm_trains l nm then 1 else 0) s s'.
Proof.
  intros Hs. destruct (Steps_lstm step (fun _ => mini) (lstm_trains l) (lstm_sizes l) mini l ltac:(done) ltac:(done) ltac:(done) s Hs) as (s' & E & _ & P). eauto.
Qed.
(** nesterov and adamod do the same in mode GRADIENT_DESCENT ... *)
Theorem C50_lstm_nesterov_adamod St (step : nat -> R -> R -> St -> R * St) step3 mini l s :
  ls_mode l = GRADIENT_DESCENT -> sized (lstm_trains l) (lstm_sizes l) s ->
  (exists s', update_lstm_nesterov step mini l s = Some s' /\ stepped step (fun _ => mini) (fun nm _ => if lstm_trains l nm then 1 else 0) s s') /\
  (exists s', update_lstm_adamod step step3 mini l s = Some s' /\ stepped step (fun _ => mini) (fun nm _ => if lstm_trains l nm then 1 else 0) s s').
Proof.
  intros M Hs. destruct (C50_lstm St step mini l s Hs) as (s' & E & P). unfold update_lstm_nesterov, update_lstm_adamod. unfold update_lstm in E.
  rewrite M in *. split; exists s'; split; done.
Qed.
(** ... but in mode EDGE_POPUP both fail on every layer as the constructor builds it (recurrent_layers.c:74-96: the weights have no
    optimizer buffers in that mode), because they read those buffers instead of the ones of the scores *)
Theorem C50_lstm_edge_popup_refuted St (step : nat -> R -> R -> St -> R * St) step3 mini l s :
  ls_mode l = EDGE_POPUP -> 0 < ls_in l -> 0 < ls_out l -> (forall j, buf s (W j) = [] /\ buf s (U j) = []) ->
  update_lstm_nesterov step mini l s = None /\ update_lstm_adamod step step3 mini l s = None.
Proof.
  intros M Hi Ho Hb.
  assert (forall (g : nat -> store St -> option (store St)) a x, 0 < a -> g 0 x = None -> for_loop a 0 g x = None) as L.
  { intros g [|a] x Ha E; [lia|]. cbn. by rewrite E. }
  assert (0 < ls_out l * ls_in l) by nia.
  unfold update_lstm_nesterov, update_lstm_adamod. rewrite M. split; (apply L; [lia|]); cbv beta.
  - rewrite L; [done|done|]. rewrite decide_False, decide_True by done. unfold upd_from. destruct (rd (val s _) _); [|done]. cbn [mbind option_bind]. destruct (rd (grad _ _) _); [|done]. cbn. by rewrite (proj2 (Hb 0)).
  - rewrite L; [done|done|]. rewrite decide_False, decide_True by done. unfold upd_d3. destruct (rd (val s _) _); [|done]. cbn [mbind option_bind]. destruct (rd (grad _ _) _); [|done]. cbn [mbind option_bind]. destruct (rd (buf s (WScores 0)) _); [|done]. cbn. by rewrite (proj1 (Hb 0)).
Qed.

(** The defects above on a concrete layer, with plain gradient descent (nesterov with momentum 0): two 1x1 kernels, one group, gamma
    = 1 with gradient 6 and learning rate 1/2. *)
Definition gd (lr : R) : nat -> R -> R -> R -> R * R := fun mini p d b => nesterov_momentum p lr 0 mini d b.
Definition conv2 : cl := Cl GRADIENT_DESCENT true 2 1 1 1 [Bnl true 1].
Definition conv2_arr (x : R) (nm : name) : list R :=
  match nm with Kernel k => if decide (k < 2) then [x] else [] | Biases => [x; x] | Gamma 0 | Beta 0 => [x] | _ => [] end.
Definition conv2_store : store R := Store (conv2_arr 1) (conv2_arr 6) (conv2_arr 0).
Example conv2_sized : sized (cl_trains conv2) (cl_sizes conv2) conv2_store.
Proof.
  intros nm T. destruct nm; try done; cbn [conv2_store val grad buf conv2_arr].
  - destruct (decide (k < 2)) as [|N]; [done|]. unfold cl_trains in T. cbn in T. rewrite bool_decide_false in T; [done|]. cbn. intros [? _]; lia.
  - destruct b; [done|]. done.
  - destruct b; [done|]. done.
Qed.
(** (a) Adaptive families call the step of gamma twice (once per kernel): with mini-batch size 1, gamma becomes 1 - 2 * (6/2) = -5
    instead of -2.  (b) The nesterov family also ignores the mini-batch size: with a mini-batch of 3, the kernels move by the mean
    gradient (6/3 = 2), gamma by the sum, twice *)
Theorem C50_group_norm_refuted :
  (exists s', update_cl_adaptive (gd (1/2)) 1 conv2 conv2_store = Some s' /\ val s' (Kernel 0) = [-2]%R /\ val s' (Gamma 0) = [-5]%R) /\
  (exists s', update_cl_nesterov (gd (1/2)) 3 conv2 conv2_store = Some s' /\ val s' (Kernel 0) = [0]%R /\ val s' (Gamma 0) = [-5]%R).
Proof.
  destruct (C50_conv R (gd (1/2)) 1 conv2 conv2_store conv2_sized) as ((s1 & E1 & _ & P1) & _).
  destruct (C50_conv R (gd (1/2)) 3 conv2 conv2_store conv2_sized) as (_ & (s3 & E3 & _ & P3)).
  assert (forall (s' : store R) (nm : name) v, (forall i, i <> 0 -> val s' nm !! i = None) -> val s' nm !! 0 = Some v -> val s' nm = [v]) as L.
  { intros s' nm v N E. apply list_eq. intros [|i]; [done|]. rewrite N by done. done. }
  assert (forall s' : store R, (exists m b, update_cl (gd (1/2)) m b conv2 conv2_store = Some s') -> forall nm, length (val s' nm) = length (val conv2_store nm)) as LEN.
  { intros s' (m & b & E) nm.
    destruct (Steps_cl (gd (1/2)) (minis m b) (cl_trains conv2) (cl_sizes conv2) m b conv2 ltac:(done) ltac:(done) ltac:(done) conv2_store conv2_sized) as (s2 & E2 & Z & _ & P).
    rewrite E in E2. injection E2 as <-. destruct (cl_trains conv2 nm) eqn:T; [by rewrite (proj1 (Z nm T)), (proj1 (conv2_sized nm T))|].
    assert (val s' nm = val conv2_store nm) as ->; [|done]. apply list_eq. intros i. destruct (P nm i) as (P0 & _). apply P0. unfold cl_steps. by rewrite T. }
  split; [exists s1|exists s3]; (split; [done|]).
  - assert (forall nm, length (val s1 nm) = length (val conv2_store nm)) as Z by (apply LEN; by exists 1, 1). split.
    + apply L; [intros i Hi; apply lookup_ge_None_2; rewrite Z; match goal with |- ?x <= _ => change x with 1 end; lia|].
      destruct (proj2 (P1 (Kernel 0) 0) 1%R 6%R 0%R ltac:(done) ltac:(done) ltac:(done)) as (-> & _). f_equal.
      match goal with |- context [Nat.iter ?k _ _] => change k with 1 end. cbn [Nat.iter nat_rect minis]. unfold gd, nesterov_momentum. cbn [fst snd]. rewrite ?INR_IZR_INZ. change (Z.of_nat 1) with 1%Z. change (Z.of_nat 3) with 3%Z. lra.
    + apply L; [intros i Hi; apply lookup_ge_None_2; rewrite Z; match goal with |- ?x <= _ => change x with 1 end; lia|].
      destruct (proj2 (P1 (Gamma 0) 0) 1%R 6%R 0%R ltac:(done) ltac:(done) ltac:(done)) as (-> & _). f_equal.
      match goal with |- context [Nat.iter ?k _ _] => change k with 2 end. cbn [Nat.iter nat_rect minis]. unfold gd, nesterov_momentum. cbn [fst snd]. rewrite ?INR_IZR_INZ. change (Z.of_nat 1) with 1%Z. change (Z.of_nat 3) with 3%Z. lra.
  - assert (forall nm, length (val s3 nm) = length (val conv2_store nm)) as Z by (apply LEN; by exists 3, 1). split.
    + apply L; [intros i Hi; apply lookup_ge_None_2; rewrite Z; match goal with |- ?x <= _ => change x with 1 end; lia|].
      destruct (proj2 (P3 (Kernel 0) 0) 1%R 6%R 0%R ltac:(done) ltac:(done) ltac:(done)) as (-> & _). f_equal.
      match goal with |- context [Nat.iter ?k _ _] => change k with 1 end. cbn [Nat.iter nat_rect minis]. unfold gd, nesterov_momentum. cbn [fst snd]. rewrite ?INR_IZR_INZ. change (Z.of_nat 1) with 1%Z. change (Z.of_nat 3) with 3%Z. lra.
    + apply L; [intros i Hi; apply lookup_ge_None_2; rewrite Z; match goal with |- ?x <= _ => change x with 1 end; lia|].
      destruct (proj2 (P3 (Gamma 0) 0) 1%R 6%R 0%R ltac:(done) ltac:(done) ltac:(done)) as (-> & _). f_equal.
      match goal with |- context [Nat.iter ?k _ _] => change k with 2 end. cbn [Nat.iter nat_rect minis]. unfold gd, nesterov_momentum. cbn [fst snd]. rewrite ?INR_IZR_INZ. change (Z.of_nat 1) with 1%Z. change (Z.of_nat 3) with 3%Z. lra.
Qed.

(** C46.  The penalty of a fully connected layer: lambda/n times its own weight is added once to the gradient of every weight (mode
    GRADIENT_DESCENT) or of every score (EDGE_POPUP); weights, biases, buffers and all other gradients are unchanged *)
Theorem C46_fcl St lambda n f (s : store St) :
  length (val s Weights) = fl_out f * fl_in f ->
  (fl_mode f = GRADIENT_DESCENT -> length (grad s Weights) = fl_out f * fl_in f) ->
  (fl_mode f = EDGE_POPUP -> length (grad s Scores) = fl_out f * fl_in f) ->
  exists s', add_l2_fcl lambda n f s = Some s' /\ penalized lambda n (fcl_penalty f) weights_of s s'.
Proof.
  intros H1 H2 H3. eapply PenC_penalized; [apply (l2_fcl lambda n (fun nm => length (val s nm)) (fun nm => length (grad s nm))); done|]. intros nm. done.
Qed.
Theorem C46_lstm St lambda n l (s : store St) :
  (forall j, j < 4 -> length (val s (W j)) = ls_out l * ls_in l /\ length (val s (U j)) = ls_out l * ls_out l) ->
  (ls_mode l = GRADIENT_DESCENT -> forall j, j < 4 -> length (grad s (W j)) = ls_out l * ls_in l /\ length (grad s (U j)) = ls_out l * ls_out l) ->
  (ls_mode l = EDGE_POPUP -> forall j, j < 4 -> length (grad s (WScores j)) = ls_out l * ls_in l /\ length (grad s (UScores j)) = ls_out l * ls_out l) ->
  (forall j, 4 <= j -> grad s (W j) = [] /\ grad s (U j) = [] /\ grad s (WScores j) = [] /\ grad s (UScores j) = []) ->
  exists s', add_l2_lstm lambda n l s = Some s' /\ penalized lambda n (lstm_penalty l) weights_of s s'.
Proof.
  intros H1 H2 H3 H4. eapply PenC_penalized; [apply (l2_lstm lambda n (fun nm => length (val s nm)) (fun nm => length (grad s nm))); try done|].
  - intros j Hj. destruct (H4 j Hj) as (-> & -> & -> & ->). done.
  - intros nm. done.
Qed.
(** Convolution in mode GRADIENT_DESCENT: kernels and group-norm gammas *)
Theorem C46_conv St lambda n c (s : store St) :
  cv_conv c = true -> cv_mode c = GRADIENT_DESCENT ->
  (forall k, k < cv_kernels c -> length (val s (Kernel k)) = cv_channels c * cv_rows c * cv_cols c /\ length (grad s (Kernel k)) = cv_channels c * cv_rows c * cv_cols c) ->
  (forall b, b < length (cv_group c) -> length (val s (Gamma b)) = group_dim (cv_group c) b /\ length (grad s (Gamma b)) = group_dim (cv_group c) b) ->
  exists s', add_l2_cl lambda n c s = Some s' /\ penalized lambda n (cl_penalty c) weights_of s s'.
Proof.
  intros CV C H1 H2. eapply PenC_penalized; [apply (l2_cl_gd lambda n (fun nm => length (val s nm)) (fun nm => length (grad s nm))); try done|intros nm; done].
  - intros k Hk. destruct (H1 k Hk) as (-> & ->). done.
  - intros b Hb. destruct (H2 b Hb) as (-> & ->). done.
Qed.
(** Convolution in mode EDGE_POPUP: not the penalty of the scores' own weights.  Score number k, for k below the number of kernels,
    gets the penalties of all weights of kernel k; all other scores get none *)
Theorem C46_conv_edge_popup_refuted St lambda n c (s : store St) :
  cv_conv c = true -> cv_mode c = EDGE_POPUP ->
  (forall k, k < cv_kernels c -> length (val s (Kernel k)) = cv_channels c * cv_rows c * cv_cols c) ->
  cv_kernels c <= length (grad s Scores) ->
  exists s', add_l2_cl lambda n c s = Some s' /\ val s' = val s /\
    forall i d, grad s Scores !! i = Some d ->
      grad s' Scores !! i = Some (d + (if decide (i < cv_kernels c)%nat then lambda / INR n * sumn (cv_channels c * cv_rows c * cv_cols c)%nat (fun t => el (val s (Kernel i)) t) else 0))%R.
Proof.
  intros CV C H1 H2. destruct (l2_cl_edge_popup lambda n (fun nm => length (val s nm)) (fun nm => length (grad s nm)) c CV C H1 H2 s ltac:(done)) as (s' & E & _ & V & _ & G).
  exists s'. split; [done|]. split; [done|]. intros i d Hd. rewrite (G _ _ _ Hd). f_equal. f_equal. repeat destruct decide; try done; tauto.
Qed.

(** Regularization and update together (update_model): one gradient-descent step on a fully connected layer uses the mini-batch mean
    of the gradient sum plus lambda/n times the weight *)
Theorem C46_update_model_fcl lr mini n lambda f (s : store R) i w d b :
  0 < mini -> 0 < n -> fl_mode f = GRADIENT_DESCENT -> fl_only_dropout f = false -> length (val s Weights) = fl_out f * fl_in f ->
  sized (fcl_trains f) (fcl_sizes f) s ->
  val s Weights !! i = Some w -> grad s Weights !! i = Some d -> buf s Weights !! i = Some b ->
  exists s', update_model_fcl (gd lr) mini mini true n lambda f s = Some s' /\
    val s' Weights !! i = Some (w - lr * (d / INR mini + lambda / INR n * w))%R.
Proof.
  intros Hm Hn M D LW Hs Ew Ed Eb.
  assert (fcl_trains f Weights = true) as TW by (unfold fcl_trains; by rewrite D, M).
  destruct (C46_fcl R (lambda * INR mini) n f s LW) as (s1 & E1 & V & B & G).
  { intros _. by destruct (Hs Weights TW) as (_ & -> & _). } { by rewrite M. }
  assert (sized (fcl_trains f) (fcl_sizes f) s1) as Hs1.
  { intros nm T. rewrite V, B. destruct (Hs nm T) as (L1 & L2 & L3). split; [done|]. split; [|done].
    destruct (l2_fcl (St := R) (lambda * INR mini) n (fun nm => length (val s nm)) (fun nm => length (grad s nm)) f LW) with (s := s) as (s1' & E1' & Z & _).
    { intros _. by destruct (Hs Weights TW) as (_ & -> & _). } { by rewrite M. } { done. }
    rewrite E1 in E1'. injection E1' as <-. by rewrite (proj2 (Z nm)). }
  destruct (proj1 (C50_fcl R (gd lr) mini f s1 Hs1)) as (s2 & E2 & _ & P).
  exists s2. split; [unfold update_model_fcl; rewrite E1; exact E2|].
  pose proof (G _ _ _ Ed) as G1. rewrite <- V in Ew. rewrite <- B in Eb.
  destruct (proj2 (P Weights i) _ _ _ Ew G1 Eb) as (-> & _). f_equal. rewrite TW. cbn [Nat.iter nat_rect minis]. unfold gd, nesterov_momentum. cbn [fst].
  cbn [fcl_penalty weights_of]. rewrite M, bool_decide_true by done. rewrite V in Ew. rewrite (el_lookup _ _ _ Ew).
  pose proof (lt_0_INR _ Hm). pose proof (lt_0_INR _ Hn). field. lra.
Qed.

(** a 2x2 layer that meets the hypotheses *)
Definition fcl22 : fcl := Fcl GRADIENT_DESCENT false false 2 2 None.
Definition fcl22_arr (x : R) (nm : name) : list R := match nm with Weights => [x; x; 2 * x; 3 * x]%R | Biases => [x; x] | _ => [] end.
Definition fcl22_store : store R := Store (fcl22_arr 1) (fcl22_arr 2) (fcl22_arr 0).
Example fcl22_sized : sized (fcl_trains fcl22) (fcl_sizes fcl22) fcl22_store.
Proof. intros nm T. destruct nm; try done; cbn in *; destruct b; done. Qed.
Example C46_example : exists s', update_model_fcl (gd 1) 2 2 true 4 1 fcl22 fcl22_store = Some s' /\ val s' Weights !! 3 = Some (-3/4)%R.
Proof.
  destruct (C46_update_model_fcl 1 2 4 1 fcl22 fcl22_store 3 (3 * 1) (3 * 2) (3 * 0)) as (s' & E & V); try done; try lia; [apply fcl22_sized|].
  exists s'. split; [done|]. rewrite V. f_equal. cbn. lra.
Qed.

Print Assumptions C50_fcl.
Print Assumptions C50_conv.
Print Assumptions C50_conv_once.
Print Assumptions C50_lstm.
Print Assumptions C50_lstm_nesterov_adamod.
Print Assumptions C50_lstm_edge_popup_refuted.
Print Assumptions C50_group_norm_refuted.
Print Assumptions C46_fcl.
Print Assumptions C46_lstm.
Print Assumptions C46_conv.
Print Assumptions C46_conv_edge_popup_refuted.
Print Assumptions C46_update_model_fcl.
