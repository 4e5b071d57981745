(** What summing gradients should do *)
From Verif Require Import NumLib Upd_Model Upd_Spec Net_Model Net_Spec Sum_Model.
Open Scope nat_scope.

(** a copy of a network: the same layers at other addresses *)
Definition reloc_f (s : nat -> nat) (f : fnode) : fnode := FN (s (f_at f)) (f_cfg f) (f_groups f) (f_edge f).
Definition reloc_c (s : nat -> nat) (f : cnode) : cnode := CN (s (c_at f)) (c_cfg f) (c_edge f).
Definition reloc_l (s : nat -> nat) (f : lnode) : lnode := LN (s (l_at f)) (l_cfg f) (l_bns f).
Definition reloc (s : nat -> nat) (m : model) : model := Model (map (reloc_f s) (fcls m)) (map (reloc_c s) (cls m)) (map (map (reloc_c s)) (rls m)).
Definition reloc_r (s : nat -> nat) (ls : list lnode) : list lnode := map (reloc_l s) ls.
Definition reloc_dqn (s : nat -> nat) (d : dqn) : dqn := Dqn (reloc s (shared_hidden d)) (reloc s (v_hidden d)) (reloc s (v_linear d)) (reloc s (a_hidden d)) (reloc s (a_linear d)).
Definition reloc_vae (s : nat -> nat) (v : vae) : vae := Vae (reloc s (vae_encoder v)) (reloc s (vae_decoder v)).
(** a gradient of the copy *)
Definition mv (s : nat -> nat) (p : slot) : slot := (s p.1.1, p.1.2, p.2).
(** the copies (of something with layers at the addresses A) are made of different layers *)
Definition separate (A : list nat) (ss : list (nat -> nat)) : Prop := NoDup (concat (map (fun s => map s A) ss)).
Definition copies_at (A : list nat) (ss : list (nat -> nat)) : list nat := concat (map (fun s => map s A) ss).

(** the gradient arrays a layer has: exists_d_params_fcl, exists_edge_popup_stuff_fcl (fully_connected_layers.c) and
    exists_d_kernels_cl, exists_d_biases_cl, exists_edge_popup_stuff_cl (convolutional_layers.c:911-953) *)
Definition fcl_has (f : fnode) (nm : name) : bool :=
  negb (fl_only_dropout (f_cfg f)) &&
  match nm with
  | Weights | Biases => bool_decide (fl_mode (f_cfg f) <> EDGE_POPUP /\ fl_mode (f_cfg f) <> ONLY_FF)
  | Scores => bool_decide (f_edge f = true \/ fl_mode (f_cfg f) = EDGE_POPUP)
  | _ => false
  end.
Definition cl_has (f : cnode) (nm : name) : bool :=
  cv_conv (c_cfg f) &&
  match nm with
  | Kernel _ | Biases => bool_decide (cv_mode (c_cfg f) <> EDGE_POPUP /\ cv_mode (c_cfg f) <> ONLY_FF)
  | Scores => bool_decide (c_edge f = true \/ cv_mode (c_cfg f) = EDGE_POPUP)
  | _ => false
  end.
Definition fcl_grads (f : fnode) : list slot := slots (f_at f) [Weights; Biases; Scores] (fcl_has f) (fcl_sizes (f_cfg f)).
Definition cl_grads (f : cnode) : list slot :=
  slots (c_at f) (map Kernel (List.seq 0 (cv_kernels (c_cfg f))) ++ [Biases; Scores]) (cl_has f) (cl_sizes (c_cfg f)).
Definition model_grads (m : model) : list slot :=
  concat (map fcl_grads (fcls m)) ++ concat (map cl_grads (cls m)) ++ concat (map cl_grads (concat (rls m))).
(** every gradient array of an LSTM, with its normalization layers *)
Definition lstm_grads (f : lnode) : list slot :=
  slots (l_at f) (concat (map lstm_gates (List.seq 0 4)) ++ groups (length (l_bns f)))
    (fun nm => match nm with W _ | U _ | LBiases _ => bool_decide (ls_mode (l_cfg f) = GRADIENT_DESCENT)
                           | WScores _ | UScores _ => bool_decide (ls_mode (l_cfg f) = EDGE_POPUP) | _ => true end)
    (fun nm => match nm with Gamma b | Beta b => group_dim (l_bns f) b | _ => lstm_sizes (l_cfg f) nm end).
(** all copies have these arrays *)
Definition copies_allocated (h : heap) (G : list slot) (ss : list (nat -> nat)) : Prop := Forall (fun s => allocated h (map (mv s) G)) ss.

(** layers on which the sums are right: no noise, no normalization; residual layers not trained by their scores *)
Definition fcl_sums (f : fnode) : Prop := fl_noisy (f_cfg f) = false /\ fl_norm (f_cfg f) = None.
Definition cl_sums (f : cnode) : Prop := cv_group (c_cfg f) = [].
Definition residual_sums (f : cnode) : Prop := cv_group (c_cfg f) = [] /\ cv_mode (c_cfg f) <> EDGE_POPUP /\ 0 < cv_channels (c_cfg f) * cv_rows (c_cfg f) * cv_cols (c_cfg f).
Definition summable (m : model) : Prop := Forall fcl_sums (fcls m) /\ Forall cl_sums (cls m) /\ Forall residual_sums (concat (rls m)).

(** the trained gradients S of the copies ss are added to those of the copy s0; only layers in B may change *)
Definition summed (S : list slot) (s0 : nat -> nat) (ss : list (nat -> nat)) (B : list nat) (h h' : heap) : Prop :=
  (forall p, p ∈ S -> get h' (mv s0 p) = (get h (mv s0 p) + suml (map (fun s => get h (mv s p)) ss))%R) /\
  forall a nm, a ∉ B -> h' a nm = h a nm.

(** * Threads *)
Definition steps : prog * heap -> prog * heap -> Prop := rtc step.
(** the next accesses of all threads: address, array, index, is it a write? *)
Fixpoint accesses (p : prog) : list (slot * bool) :=
  match p with Read a nm i _ => [((a, nm, i), false)] | Write a nm i _ _ => [((a, nm, i), true)] | Par p q _ => accesses p ++ accesses q | _ => [] end.
(** two threads are about to access the same gradient, one of them writing *)
Fixpoint race (p : prog) : Prop :=
  match p with
  | Par p q _ => race p \/ race q \/ exists x b1 b2, (x, b1) ∈ accesses p /\ (x, b2) ∈ accesses q /\ b1 || b2 = true
  | _ => False
  end.
(** every execution of p from h is finite, never stuck and race free, and ends in the heap h' *)
Definition always_ends (p : prog) (h h' : heap) : Prop :=
  (forall x, Acc (fun x y => step y x) (p, x)) /\
  forall p1 h1, steps (p, h) (p1, h1) -> ~ race p1 /\ ((p1 = Done /\ h1 = h') \/ exists x, step (p1, h1) x).
