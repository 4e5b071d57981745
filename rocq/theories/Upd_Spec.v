(** What an optimizer update should do to a layer *)
From Verif Require Import NumLib Upd_Model.
Open Scope nat_scope.

(** the arrays selected by [t] are allocated with [sz nm] entries, and so are their gradients and optimizer buffers; nothing is
    assumed about the other arrays (they may be NULL or have no gradient) *)
Definition sized {St} (t : name -> bool) (sz : name -> nat) (s : store St) : Prop :=
  forall nm, t nm = true -> length (val s nm) = sz nm /\ length (grad s nm) = sz nm /\ length (buf s nm) = sz nm.

(** every entry i of every array nm received exactly [c nm i] optimizer steps with its own gradient and buffers (scaled by the
    mini-batch size [mini nm]); entries with c nm i = 0 and all gradients are unchanged *)
Definition stepped {St} (step : nat -> R -> R -> St -> R * St) (mini : name -> nat) (c : name -> nat -> nat) (s s' : store St) : Prop :=
  grad s' = grad s /\
  forall nm i,
    (c nm i = 0 -> val s' nm !! i = val s nm !! i /\ buf s' nm !! i = buf s nm !! i) /\
    forall v d b, val s nm !! i = Some v -> grad s nm !! i = Some d -> buf s nm !! i = Some b ->
      let r := Nat.iter (c nm i) (fun r => step (mini nm) r.1 d r.2) (v, b) in val s' nm !! i = Some r.1 /\ buf s' nm !! i = Some r.2.

(** mini-batch sizes used by one call: normalization parameters may get another one *)
Definition minis (m bm : nat) (nm : name) : nat := match nm with Gamma _ | Beta _ => bm | _ => m end.

(** array sizes and trainable arrays of a fully connected layer *)
Definition fcl_sizes (f : fcl) (nm : name) : nat :=
  match nm with
  | Weights | NoisyWeights | Scores => fl_out f * fl_in f
  | Biases | NoisyBiases => fl_out f
  | Gamma 0 | Beta 0 => match fl_norm f with Some b => bnl_dim b | None => 0 end
  | _ => 0
  end.
Definition fcl_trains (f : fcl) (nm : name) : bool :=
  if fl_only_dropout f then false else
  match nm with
  | Weights => bool_decide (fl_mode f = GRADIENT_DESCENT \/ fl_mode f = FREEZE_BIASES)
  | NoisyWeights => bool_decide (fl_mode f = GRADIENT_DESCENT \/ fl_mode f = FREEZE_BIASES) && fl_noisy f
  | Biases => bool_decide (fl_mode f = GRADIENT_DESCENT)
  | NoisyBiases => bool_decide (fl_mode f = GRADIENT_DESCENT) && fl_noisy f
  | Scores => bool_decide (fl_mode f = EDGE_POPUP)
  | Gamma 0 | Beta 0 => bool_decide (fl_mode f <> FREEZE_TRAINING) && match fl_norm f with Some b => bnl_train b | None => false end
  | _ => false
  end.

(** the same for a convolutional layer *)
Definition group_dim (bns : list bnl) (b : nat) : nat := match bns !! b with Some x => bnl_dim x | None => 0 end.
Definition group_trains (bns : list bnl) (b : nat) : bool := match bns !! b with Some x => bnl_train x | None => false end.
Definition cl_sizes (c : cl) (nm : name) : nat :=
  match nm with
  | Kernel k => cv_channels c * cv_rows c * cv_cols c
  | Biases => cv_kernels c
  | Scores => cv_kernels c * cv_channels c * cv_rows c * cv_cols c
  | Gamma b | Beta b => group_dim (cv_group c) b
  | _ => 0
  end.
Definition cl_trains (c : cl) (nm : name) : bool :=
  cv_conv c &&
  match nm with
  | Kernel k => bool_decide (k < cv_kernels c /\ (cv_mode c = GRADIENT_DESCENT \/ cv_mode c = FREEZE_BIASES))
  | Biases => bool_decide (cv_mode c = GRADIENT_DESCENT)
  | Scores => bool_decide (cv_mode c = EDGE_POPUP)
  | Gamma b | Beta b => bool_decide (cv_mode c = GRADIENT_DESCENT \/ cv_mode c = FREEZE_BIASES) && group_trains (cv_group c) b
  | _ => false
  end.

(** steps of a convolutional layer per update; [group] is the number of steps of the trainable group-norm parameters *)
Definition cl_steps (group : nat) (c : cl) (nm : name) : nat :=
  if cl_trains c nm then match nm with Gamma _ | Beta _ => group | _ => 1 end else 0.

(** the same for an LSTM layer *)
Definition lstm_sizes (l : lstm) (nm : name) : nat :=
  match nm with
  | W j => ls_out l * ls_in l
  | U j => ls_out l * ls_out l
  | LBiases j => ls_out l
  | WScores j => ls_out l * ls_in l
  | UScores j => ls_out l * ls_out l
  | _ => 0
  end.
Definition lstm_trains (l : lstm) (nm : name) : bool :=
  match nm with
  | W j | U j | LBiases j => bool_decide (j < 4 /\ ls_mode l = GRADIENT_DESCENT)
  | WScores j | UScores j => bool_decide (j < 4 /\ ls_mode l = EDGE_POPUP)
  | _ => false
  end.

(** L2 penalty: every entry of the arrays selected by [pen] gets lambda/n times its own weight added to its gradient; [own nm] is
    the array that holds the weights of nm; values and buffers do not change *)
Definition penalized {St} (lambda : R) (n : nat) (pen : name -> bool) (own : name -> name) (s s' : store St) : Prop :=
  val s' = val s /\ buf s' = buf s /\
  forall nm i d, grad s nm !! i = Some d ->
    grad s' nm !! i = Some (d + (if pen nm then lambda / INR n * el (val s (own nm)) i else 0))%R.

(** the weights an array of scores belongs to *)
Definition weights_of (nm : name) : name :=
  match nm with Scores => Weights | WScores j => W j | UScores j => U j | x => x end.
(** the arrays whose gradients get the L2 penalty *)
Definition fcl_penalty (f : fcl) (nm : name) : bool :=
  match nm with Weights => bool_decide (fl_mode f = GRADIENT_DESCENT) | Scores => bool_decide (fl_mode f = EDGE_POPUP) | _ => false end.
Definition lstm_penalty (l : lstm) (nm : name) : bool :=
  match nm with W j | U j => bool_decide (j < 4 /\ ls_mode l = GRADIENT_DESCENT) | WScores j | UScores j => bool_decide (j < 4 /\ ls_mode l = EDGE_POPUP) | _ => false end.
Definition cl_penalty (c : cl) (nm : name) : bool :=
  match nm with Kernel k => bool_decide (k < cv_kernels c) | Gamma b => bool_decide (b < length (cv_group c)) | _ => false end.
