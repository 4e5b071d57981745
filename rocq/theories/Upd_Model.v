(** Model of src/update.c (layer updates) and src/regularization.c.

    The five families of functions (nesterov, adam, radam, adam_diff_grad, adamod) have the same loops and conditions and differ
    in the function of gd.c they call on (parameter, gradient, optimizer buffers).  The loops are modelled once, for any such
    function [step] (see Optim_Model.v for the five instances); where a family deviates, it has its own definition here. *)
From Verif Require Import NumLib.
Open Scope nat_scope.

(** The parameter arrays of a layer.  b, k, j number group-norm layers, kernels and LSTM gates *)
Inductive name :=
| Weights | NoisyWeights | Scores | Biases | NoisyBiases
| Kernel (k : nat) | Gamma (b : nat) | Beta (b : nat)
| W (j : nat) | U (j : nat) | LBiases (j : nat) | WScores (j : nat) | UScores (j : nat).
Global Instance name_eq_dec : EqDecision name.
Proof. solve_decision. Defined.

(** training modes, llab.h:162-166 *)
Inductive mode := GRADIENT_DESCENT | EDGE_POPUP | ONLY_FF | FREEZE_TRAINING | FREEZE_BIASES.
Global Instance mode_eq_dec : EqDecision mode.
Proof. solve_decision. Defined.

(** For every array p of a layer: the values p, the gradients d_p and the optimizer buffers (d1_p, d2_p, d3_p).  An array that
    was not allocated (NULL) is [] *)
Record store (St : Type) := Store { val : name -> list R; grad : name -> list R; buf : name -> list St }.
Arguments Store {St} _ _ _. Arguments val {St} _ _. Arguments grad {St} _ _. Arguments buf {St} _ _.
Definition fset {A} (f : name -> A) (nm : name) (x : A) : name -> A := fun n => if decide (n = nm) then x else f n.

Section update.
Context {St : Type} (step : nat -> R -> R -> St -> R * St).

(** one call step(&p[i], ..., d_p[i], &d1_p[i], ...) *)
Definition upd (mini : nat) (nm : name) (i : nat) (s : store St) : option (store St) :=
  v ← rd (val s nm) i; d ← rd (grad s nm) i; b ← rd (buf s nm) i;
  let r := step mini v d b in
  Some (Store (fset (val s) nm (<[i := r.1]> (val s nm))) (grad s) (fset (buf s) nm (<[i := r.2]> (buf s nm)))).

(** struct bn: training_mode == GRADIENT_DESCENT and vector_dim *)
Record bnl := Bnl { bnl_train : bool; bnl_dim : nat }.
(** update.c:533-542, 737-745, 760-768, 784-792, 807-815 update_batch_normalized_layer_*.  [mini] is 1 in the nesterov version *)
Definition update_bns (mini : nat) (bns : list bnl) (s : store St) : option (store St) :=
  for_loop (length bns) 0 (fun i s => b ← rd bns i;
    if bnl_train b then for_loop (bnl_dim b) 0 (fun j s => s ← upd mini (Gamma i) j s; upd mini (Beta i) j s) s else Some s) s.

(** the fields of struct fcl read by the update; fl_norm is the layer_norm of a layer with LAYER_NORMALIZATION *)
Record fcl := Fcl { fl_mode : mode; fl_only_dropout : bool; fl_noisy : bool; fl_in : nat; fl_out : nat; fl_norm : option bnl }.
(** update.c:488-513, 557-582, 606-631, 649-674, 694-718 update_fully_connected_layer_*, body of the loop over the layers *)
Definition update_fcl (mini bn_mini : nat) (f : fcl) (s : store St) : option (store St) :=
  if decide (fl_mode f <> FREEZE_TRAINING /\ fl_only_dropout f = false) then
    s ← for_loop (fl_out f) 0 (fun j s =>
      s ← for_loop (fl_in f) 0 (fun k s =>
        if decide (fl_mode f = GRADIENT_DESCENT \/ fl_mode f = FREEZE_BIASES) then
          s ← upd mini Weights (j * fl_in f + k) s;
          if fl_noisy f then upd mini NoisyWeights (j * fl_in f + k) s else Some s
        else if decide (fl_mode f = EDGE_POPUP) then upd mini Scores (j * fl_in f + k) s
        else Some s) s;
      if decide (fl_mode f = GRADIENT_DESCENT) then
        s ← upd mini Biases j s;
        if fl_noisy f then upd mini NoisyBiases j s else Some s
      else Some s) s;
    match fl_norm f with Some b => update_bns bn_mini [b] s | None => Some s end
  else Some s.

(** the fields of struct cl read by the update; cv_conv: convolutional_flag is CONVOLUTION or TRANSPOSED_CONVOLUTION; cv_group
    is the group_norm array of a layer with GROUP_NORMALIZATION ([] otherwise) *)
Record cl := Cl { cv_mode : mode; cv_conv : bool; cv_kernels : nat; cv_channels : nat; cv_rows : nat; cv_cols : nat; cv_group : list bnl }.
(** update.c:264-294, 310-342, 355-..., 400-..., 444-... update_convolutional_layer_* and 36-66, 82-..., ... (the same for the layers
    of a residual block), body of the loop over the layers.  The call for the group normalization is inside the loop over the
    kernels. *)
Definition update_cl (mini bn_mini : nat) (c : cl) (s : store St) : option (store St) :=
  if decide (cv_mode c <> FREEZE_TRAINING) then
    if cv_conv c then
      if decide (cv_mode c = GRADIENT_DESCENT \/ cv_mode c = FREEZE_BIASES) then
        for_loop (cv_kernels c) 0 (fun k s =>
          s ← for_loop (cv_channels c) 0 (fun u => for_loop (cv_rows c) 0 (fun z => for_loop (cv_cols c) 0 (fun w s =>
                upd mini (Kernel k) (u * cv_rows c * cv_cols c + z * cv_cols c + w) s))) s;
          s ← (if decide (cv_mode c <> FREEZE_BIASES) then upd mini Biases k s else Some s);
          update_bns bn_mini (cv_group c) s) s
      else if decide (cv_mode c = EDGE_POPUP) then
        for_loop (cv_kernels c * cv_channels c * cv_rows c * cv_cols c) 0 (fun k s => upd mini Scores k s) s
      else Some s
    else Some s
  else Some s.

Record lstm := Lstm { ls_mode : mode; ls_in : nat; ls_out : nat }.
(** update.c:867-893, 903-929, 974-1002 update_lstm_layer_adam_diff_grad, _adam, _radam, body of the loop over the layers *)
Definition update_lstm (mini : nat) (l : lstm) (s : store St) : option (store St) :=
  for_loop 4 0 (fun j s =>
    s ← for_loop (ls_out l * ls_in l) 0 (fun k s =>
          if decide (ls_mode l = GRADIENT_DESCENT) then upd mini (W j) k s
          else if decide (ls_mode l = EDGE_POPUP) then upd mini (WScores j) k s else Some s) s;
    for_loop (ls_out l * ls_out l) 0 (fun k s =>
      if decide (ls_mode l = GRADIENT_DESCENT) then
        s ← upd mini (U j) k s;
        if decide (k < ls_out l /\ ls_mode l <> FREEZE_BIASES) then upd mini (LBiases j) k s else Some s
      else if decide (ls_mode l = EDGE_POPUP) then upd mini (UScores j) k s else Some s) s) s.

(** the call of the nesterov version in EDGE_POPUP mode: value and gradient of [nm], buffer of another array [bm] *)
Definition upd_from (mini : nat) (nm bm : name) (i : nat) (s : store St) : option (store St) :=
  v ← rd (val s nm) i; d ← rd (grad s nm) i; b ← rd (buf s bm) i;
  let r := step mini v d b in
  Some (Store (fset (val s) nm (<[i := r.1]> (val s nm))) (grad s) (fset (buf s) bm (<[i := r.2]> (buf s bm)))).
(** update.c:831-855 update_lstm_layer_nesterov: in EDGE_POPUP mode both loops step u_scores with the buffer d1_u *)
Definition update_lstm_nesterov (mini : nat) (l : lstm) (s : store St) : option (store St) :=
  for_loop 4 0 (fun j s =>
    s ← for_loop (ls_out l * ls_in l) 0 (fun k s =>
          if decide (ls_mode l = GRADIENT_DESCENT) then upd mini (W j) k s
          else if decide (ls_mode l = EDGE_POPUP) then upd_from mini (UScores j) (U j) k s else Some s) s;
    for_loop (ls_out l * ls_out l) 0 (fun k s =>
      if decide (ls_mode l = GRADIENT_DESCENT) then
        s ← upd mini (U j) k s;
        if decide (k < ls_out l /\ ls_mode l <> FREEZE_BIASES) then upd mini (LBiases j) k s else Some s
      else if decide (ls_mode l = EDGE_POPUP) then upd_from mini (UScores j) (U j) k s else Some s) s) s.

(** [step3] is adamod with delta3 taken from (and stored to) another array's buffer *)
Context (step3 : nat -> R -> R -> St -> St -> R * St * St).
Definition upd_d3 (mini : nat) (nm bm : name) (i : nat) (s : store St) : option (store St) :=
  v ← rd (val s nm) i; d ← rd (grad s nm) i; b ← rd (buf s nm) i; b3 ← rd (buf s bm) i;
  let r := step3 mini v d b b3 in
  let bf := fset (buf s) nm (<[i := r.1.2]> (buf s nm)) in
  Some (Store (fset (val s) nm (<[i := r.1.1]> (val s nm))) (grad s) (fset bf bm (<[i := r.2]> (bf bm)))).
(** update.c:939-965 update_lstm_layer_adamod: in EDGE_POPUP mode delta3 is d3_w, d3_u instead of d3_w_scores, d3_u_scores *)
Definition update_lstm_adamod (mini : nat) (l : lstm) (s : store St) : option (store St) :=
  for_loop 4 0 (fun j s =>
    s ← for_loop (ls_out l * ls_in l) 0 (fun k s =>
          if decide (ls_mode l = GRADIENT_DESCENT) then upd mini (W j) k s
          else if decide (ls_mode l = EDGE_POPUP) then upd_d3 mini (WScores j) (W j) k s else Some s) s;
    for_loop (ls_out l * ls_out l) 0 (fun k s =>
      if decide (ls_mode l = GRADIENT_DESCENT) then
        s ← upd mini (U j) k s;
        if decide (k < ls_out l /\ ls_mode l <> FREEZE_BIASES) then upd mini (LBiases j) k s else Some s
      else if decide (ls_mode l = EDGE_POPUP) then upd_d3 mini (UScores j) (U j) k s else Some s) s) s.

(** regularization.c / utils.c:95-97 ridge_regression(&d_p[i], w[k], lambda, n): adds lambda/n*w to a gradient.  Exact reals; the
    conversion of n from double to int is not modelled *)
Definition ridge (lambda : R) (n : nat) (nm : name) (i : nat) (wn : name) (k : nat) (s : store St) : option (store St) :=
  d ← rd (grad s nm) i; w ← rd (val s wn) k;
  Some (Store (val s) (fset (grad s) nm (<[i := (d + lambda / INR n * w)%R]> (grad s nm))) (buf s)).
(** regularization.c:129-149 add_l2_fully_connected_layer, body of the loop over the layers *)
Definition add_l2_fcl (lambda : R) (n : nat) (f : fcl) (s : store St) : option (store St) :=
  if decide (fl_mode f = GRADIENT_DESCENT) then
    for_loop (fl_out f) 0 (fun j => for_loop (fl_in f) 0 (fun k => ridge lambda n Weights (j * fl_in f + k) Weights (j * fl_in f + k))) s
  else if decide (fl_mode f = EDGE_POPUP) then
    for_loop (fl_out f) 0 (fun j => for_loop (fl_in f) 0 (fun k => ridge lambda n Scores (j * fl_in f + k) Weights (j * fl_in f + k))) s
  else Some s.
(** regularization.c:80-117 add_l2_convolutional_layer, body of the loop over the layers; n_kernels/group_norm_channels is the
    length of cv_group *)
Definition add_l2_cl (lambda : R) (n : nat) (c : cl) (s : store St) : option (store St) :=
  if cv_conv c then
    if decide (cv_mode c = GRADIENT_DESCENT) then
      s ← for_loop (cv_kernels c) 0 (fun k => for_loop (cv_channels c) 0 (fun u => for_loop (cv_rows c) 0 (fun z => for_loop (cv_cols c) 0 (fun w =>
            ridge lambda n (Kernel k) (u * cv_rows c * cv_cols c + z * cv_cols c + w) (Kernel k) (u * cv_rows c * cv_cols c + z * cv_cols c + w))))) s;
      for_loop (length (cv_group c)) 0 (fun k s => b ← rd (cv_group c) k; for_loop (bnl_dim b) 0 (fun u => ridge lambda n (Gamma k) u (Gamma k) u) s) s
    else if decide (cv_mode c = EDGE_POPUP) then
      for_loop (cv_kernels c) 0 (fun k => for_loop (cv_channels c) 0 (fun u => for_loop (cv_rows c) 0 (fun z => for_loop (cv_cols c) 0 (fun w =>
            ridge lambda n Scores k (Kernel k) (u * cv_rows c * cv_cols c + z * cv_cols c + w))))) s
    else Some s
  else Some s.
(** regularization.c:162-197 add_l2_lstm_layer, body of the loop over the layers *)
Definition add_l2_lstm (lambda : R) (n : nat) (l : lstm) (s : store St) : option (store St) :=
  if decide (ls_mode l = GRADIENT_DESCENT) then
    for_loop 4 0 (fun k s => s ← for_loop (ls_out l * ls_in l) 0 (fun u => ridge lambda n (W k) u (W k) u) s;
                             for_loop (ls_out l * ls_out l) 0 (fun u => ridge lambda n (U k) u (U k) u) s) s
  else if decide (ls_mode l = EDGE_POPUP) then
    for_loop 4 0 (fun k s => s ← for_loop (ls_out l * ls_in l) 0 (fun u => ridge lambda n (WScores k) u (W k) u) s;
                             for_loop (ls_out l * ls_out l) 0 (fun u => ridge lambda n (UScores k) u (U k) u) s) s
  else Some s.

(** update.c:1018-1060 update_model on one fully connected layer: lambda is multiplied by the mini-batch size (1024), the penalty
    is added, then the optimizer steps the layer *)
Definition update_model_fcl (mini bn_mini : nat) (l2 : bool) (n : nat) (lambda : R) (f : fcl) (s : store St) : option (store St) :=
  s ← (if l2 then add_l2_fcl (lambda * INR mini)%R n f s else Some s);
  update_fcl mini bn_mini f s.
(** The nesterov family: update_batch_normalized_layer_nesterov ignores its mini_batch_size argument and passes 1 (538-539) *)
Definition update_fcl_nesterov (mini : nat) : fcl -> store St -> option (store St) := update_fcl mini 1.
Definition update_cl_nesterov (mini : nat) : cl -> store St -> option (store St) := update_cl mini 1.
(** The four other families pass mini_batch_size on (743-744, 766-767, 790-791, 813-814) *)
Definition update_fcl_adaptive (mini : nat) : fcl -> store St -> option (store St) := update_fcl mini mini.
Definition update_cl_adaptive (mini : nat) : cl -> store St -> option (store St) := update_cl mini mini.
End update.
