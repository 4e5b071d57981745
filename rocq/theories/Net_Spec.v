(** What gradient clipping and gradient summation should do: which gradients there are, and what happens to each *)
From Coq Require Import R_sqrt.
From Verif Require Import NumLib Upd_Model Upd_Spec Net_Model.
Open Scope nat_scope.

(** one gradient: layer address, array, index *)
Definition slot : Type := nat * name * nat.
Definition get (h : heap) (p : slot) : R := el (h p.1.1 p.1.2) p.2.
(** the entries of an array of n gradients *)
Definition arr (a : nat) (nm : name) (n : nat) : list slot := map (fun i => (a, nm, i)) (seq 0 n).
(** the gradients of the arrays in [ns] that the optimizer trains (see C50) *)
Definition slots (a : nat) (ns : list name) (trains : name -> bool) (size : name -> nat) : list slot :=
  concat (map (fun nm => if trains nm then arr a nm (size nm) else []) ns).

(** every trained gradient of a layer *)
Definition fcl_slots (f : fnode) : list slot :=
  slots (f_at f) [Weights; NoisyWeights; Scores; Biases; NoisyBiases; Gamma 0; Beta 0] (fcl_trains (f_cfg f)) (fcl_sizes (f_cfg f)).
Definition groups (n : nat) : list name := concat (map (fun b => [Gamma b; Beta b]) (seq 0 n)).
Definition cl_slots (f : cnode) : list slot :=
  slots (c_at f) (map Kernel (seq 0 (cv_kernels (c_cfg f))) ++ [Biases; Scores] ++ groups (length (cv_group (c_cfg f)))) (cl_trains (c_cfg f)) (cl_sizes (c_cfg f)).
Definition lstm_gates (g : nat) : list name := [W g; U g; LBiases g; WScores g; UScores g].
Definition lstm_slots (f : lnode) : list slot :=
  slots (l_at f) (concat (map lstm_gates (seq 0 4))) (lstm_trains (l_cfg f)) (lstm_sizes (l_cfg f)) ++
  slots (l_at f) (groups (length (l_bns f)))
    (fun nm => bool_decide (ls_mode (l_cfg f) = GRADIENT_DESCENT) && match nm with Gamma b | Beta b => group_trains (l_bns f) b | _ => false end)
    (fun nm => match nm with Gamma b | Beta b => group_dim (l_bns f) b | _ => 0 end).
Definition l2_slots (s : snode) : list slot := if s_train s then [(s_at s, Gamma 0, 0)] else [].
(** ... of a network *)
Definition model_slots (m : model) : list slot :=
  concat (map fcl_slots (fcls m)) ++ concat (map cl_slots (cls m)) ++ concat (map cl_slots (concat (rls m))).
Definition encoder_models (t : encoder) : list model := e_q t ++ e_k t ++ e_v t ++ [e_m t; e_lin t].
Definition decoder_models (t : decoder) : list model := encoder_models (d_e t) ++ d_q t ++ d_k t ++ d_v t ++ [d_lin t].
Definition all_slots (ms : list model) (ss : list snode) : list slot := concat (map model_slots ms) ++ concat (map l2_slots ss).
Definition encoder_slots (t : encoder) : list slot := all_slots (encoder_models t) (e_l2 t).
Definition decoder_slots (t : decoder) : list slot := all_slots (decoder_models t) (e_l2 (d_e t) ++ d_l2 t).

(** all gradients in S exist *)
Definition allocated (h : heap) (S : list slot) : Prop := Forall (fun p => p.2 < length (h p.1.1 p.1.2)) S.
(** the Euclidean norm of the gradients in S *)
Definition sumsq (h : heap) (S : list slot) : R := suml (map (fun p => get h p * get h p)%R S).
Definition gnorm (h : heap) (S : list slot) : R := R_sqrt.sqrt (sumsq h S).
(** h' is h with every gradient of S multiplied by k; nothing else changes *)
Definition scaled (k : R) (S : list slot) (h h' : heap) : Prop :=
  (forall a nm, length (h' a nm) = length (h a nm)) /\
  forall p, get h' p = if decide (p ∈ S) then (k * get h p)%R else get h p.
(** norm clipping *)
Definition clipped (thr : R) (S : list slot) (h h' : heap) : Prop :=
  scaled (if decide (gnorm h S < thr)%R then 1 else thr / gnorm h S)%R S h h' /\ gnorm h' S = Rmin (gnorm h S) thr.

(** addresses of the layers *)
Definition addrs (m : model) : list nat := map f_at (fcls m) ++ map c_at (cls m) ++ map c_at (concat (rls m)).
Definition all_addrs (ms : list model) (ss : list snode) : list nat := concat (map addrs ms) ++ map s_at ss.

(** layers on which clipping is right: dense layers that are neither noisy nor normalized, and no layer in mode FREEZE_BIASES *)
Definition fcl_plain (f : fnode) : Prop :=
  fl_noisy (f_cfg f) = false /\ fl_norm (f_cfg f) = None /\ fl_mode (f_cfg f) <> FREEZE_BIASES /\ 0 < fl_in (f_cfg f).
Definition cl_plain (f : cnode) : Prop := cv_mode (c_cfg f) <> FREEZE_BIASES.
Definition plain (m : model) : Prop :=
  Forall fcl_plain (fcls m) /\ Forall cl_plain (cls m) /\ Forall (Forall cl_plain) (rls m).
(** an encoder whose arrays have n_head entries *)
Definition encoder_ok (t : encoder) : Prop :=
  length (e_q t) = e_head t /\ length (e_k t) = e_head t /\ length (e_v t) = e_head t /\ Forall plain (encoder_models t).
Definition decoder_ok (t : decoder) : Prop :=
  encoder_ok (d_e t) /\ length (d_q t) = d_head t /\ length (d_k t) = d_head t /\ length (d_v t) = d_head t /\ Forall plain (decoder_models t).
(** the networks and normalizations of a transformer *)
Definition transf_models (t : transformer) : list model := concat (map encoder_models (te t)) ++ concat (map decoder_models (td t)).
Definition transf_l2 (t : transformer) : list snode := concat (map e_l2 (te t)) ++ concat (map (fun d => e_l2 (d_e d) ++ d_l2 d) (td t)).
(** the network without the noise parameters of its dense layers *)
Definition denoise (f : fnode) : fnode :=
  FN (f_at f) (let c := f_cfg f in Fcl (fl_mode c) (fl_only_dropout c) false (fl_in c) (fl_out c) (fl_norm c)) (f_groups f) (f_edge f).
Definition denoised (m : model) : model := Model (map denoise (fcls m)) (cls m) (rls m).
(** the five networks of a dueling categorical DQN *)
Definition dqn_nets (d : dqn) : list model := [shared_hidden d; v_hidden d; v_linear d; a_hidden d; a_linear d].
