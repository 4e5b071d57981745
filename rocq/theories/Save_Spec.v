(** What saving and loading must do, and which objects a program can have. *)
From Coq Require Import Sorted.
From Verif Require Import Save_Model.
Open Scope Z_scope.

(** Whatever the file already holds, saving x appends some bytes to it; and loading from a place of a file where these bytes are gives y
    and leaves the file just after them, whatever follows. *)
Definition round_trip_to {A} (save : A -> file -> option file) (load : file -> option (A * file)) (x y : A) : Prop :=
  exists bytes, (forall w, save x w = Some (w ++ bytes)) /\ forall rest, load (bytes ++ rest) = Some (y, rest).
(** the same object, bit for bit *)
Definition round_trip {A} (save : A -> file -> option file) (load : file -> option (A * file)) (x : A) : Prop :=
  round_trip_to save load x x.

(** * The layers a program can have: made by the constructor from any arguments, then any values in the arrays of the parameters *)
Definition same_size (a b : arr) : Prop := length <$> a = length <$> b.
Definition bn_like (a b : bn) : Prop :=
  b_batch a = b_batch b /\ b_dim a = b_dim b /\ length (b_gamma a) = length (b_gamma b) /\ length (b_beta a) = length (b_beta b).
Definition reach_bn (b : bn) : Prop := exists batch dim b0, batch_normalization batch dim = Some b0 /\ bn_like b b0.

Definition fcl_like (f g : fcl) : Prop :=
  f_cfg f = f_cfg g /\ same_size (f_w f) (f_w g) /\ same_size (f_b f) (f_b g) /\ same_size (f_active f) (f_active g)
  /\ same_size (f_nw f) (f_nw g) /\ same_size (f_nb f) (f_nb g) /\ same_size (f_scores f) (f_scores g)
  /\ same_size (f_indices f) (f_indices g)
  /\ match f_ln f, f_ln g with Some a, Some b => bn_like a b | None, None => True | _, _ => False end.
Definition reach_fcl (f : fcl) : Prop := exists rnd nz args f0, fully_connected rnd nz args = Some f0 /\ fcl_like f f0.
(** the same layer, with k_percentage = k *)
Definition with_k (k : word) (f : fcl) : fcl :=
  Fcl (f_cfg f) k (f_w f) (f_b f) (f_active f) (f_nw f) (f_nb f) (f_scores f) (f_indices f) (f_ln f).
(** the same layer, with the flag training_mode = t *)
Definition with_train (t : Z) (f : fcl) : fcl :=
  let c := f_cfg f in
  Fcl (Fcfg (f_in c) (f_out c) (f_layer c) (f_drop c) (f_act c) (f_thr c) (f_groups c) (f_norm c) t (f_ff c) (f_mode c))
      (f_k f) (f_w f) (f_b f) (f_active f) (f_nw f) (f_nb f) (f_scores f) (f_indices f) (f_ln f).

Definition cl_like (f g : cl) : Prop :=
  c_cfg f = c_cfg g /\ c_dim f = c_dim g
  /\ match c_kernels f, c_kernels g with Some a, Some b => Forall2 (fun x y => length x = length y) a b | None, None => True | _, _ => False end
  /\ same_size (c_biases f) (c_biases g) /\ same_size (c_scores f) (c_scores g) /\ same_size (c_indices f) (c_indices g)
  /\ length (c_used f) = length (c_used g)
  /\ match c_group f, c_group g with Some a, Some b => Forall2 bn_like a b | None, None => True | _, _ => False end.
Definition reach_cl (f : cl) : Prop := exists rnd ind args f0, convolutional rnd ind args = Some f0 /\ cl_like f f0.

(** made of such layers; the activation of the output can be any *)
Definition reach_rl (r : rl) : Prop :=
  (exists r0, residual (r_channels r) (r_rows r) (r_cols r) (r_cls r) = Some r0) /\ Forall reach_cl (r_cls r).

(** A network made by network() from layers whose residual blocks list their convolutional layers in the order of their indices, and
    trained: the layers have the same configuration, and any parameters. *)
Definition sorted_by {A} (key : A -> Z) (l : list A) : Prop := StronglySorted Z.le (key <$> l).
Definition rl_like (r s : rl) : Prop :=
  r_channels r = r_channels s /\ r_rows r = r_rows s /\ r_cols r = r_cols s /\ Forall2 cl_like (r_cls r) (r_cls s).
Definition model_like (m n : model) : Prop :=
  m_layers m = m_layers n /\ Forall2 rl_like (m_rls m) (m_rls n) /\ Forall2 cl_like (m_cls m) (m_cls n) /\ Forall2 fcl_like (m_fcls m) (m_fcls n).
Definition reach_model (m : model) : Prop :=
  exists layers rls cls fcls m0,
    Forall reach_rl rls /\ Forall reach_cl cls /\ Forall reach_fcl fcls /\ Forall (fun r => sorted_by cl_layer (r_cls r)) rls
    /\ network layers rls cls fcls = Some m0 /\ model_like m m0.
(** the same network, with k_percentage = k in the fully connected layers *)
Definition model_with_k (k : word) (m : model) : model := Model (m_layers m) (m_rls m) (m_cls m) (with_k k <$> m_fcls m).
