(** Adaptive gradient clipping: units and their norms *)
From Coq Require Import R_sqrt.
From Verif Require Import NumLib Upd_Model Net_Model Net_Spec.
Open Scope nat_scope.

(** a unit: n consecutive entries of an array, the first one at b *)
Record unit := Unit { u_at : nat; u_nm : name; u_b : nat; u_n : nat }.
Definition unit_slots (u : unit) : list slot := map (fun j => (u_at u, u_nm u, u_b u + j)) (seq 0 (u_n u)).
(** rows of a matrix *)
Definition rows_of (a : nat) (nm : name) (rows cols : nat) : list unit := map (fun i => Unit a nm (i * cols) cols) (seq 0 rows).

(** one unit per output of a dense layer, per kernel of a convolution, per output and gate of an LSTM *)
Definition fcl_units (f : fnode) : list unit :=
  let c := f_cfg f in
  if fl_only_dropout c then [] else
  match fl_mode c with GRADIENT_DESCENT => rows_of (f_at f) Weights (fl_out c) (fl_in c) | EDGE_POPUP => rows_of (f_at f) Scores (fl_out c) (fl_in c) | _ => [] end.
Definition cl_units (f : cnode) : list unit :=
  let c := c_cfg f in
  if cv_conv c then match cv_mode c with GRADIENT_DESCENT => map (fun k => Unit (c_at f) (Kernel k) 0 (cv_rows c * cv_cols c * cv_channels c)) (seq 0 (cv_kernels c)) | _ => [] end else [].
Definition lstm_units (f : lnode) : list unit :=
  let c := l_cfg f in
  let gates w u := concat (map (fun k => rows_of (l_at f) (w k) (ls_out c) (ls_in c) ++ rows_of (l_at f) (u k) (ls_out c) (ls_out c)) (seq 0 4)) in
  match ls_mode c with GRADIENT_DESCENT => gates W U | EDGE_POPUP => gates WScores UScores | _ => [] end.
Definition model_units (m : model) : list unit := concat (map fcl_units (fcls m)) ++ concat (map cl_units (cls m)) ++ concat (map cl_units (concat (rls m))).

(** max(|w|, eps) *)
Definition size_w (w : heap) (eps : R) (u : unit) : R := Rmax (gnorm w (unit_slots u)) eps.
(** every unit u is multiplied by [k u]; all other gradients keep their value *)
Definition units_scaled (k : unit -> R) (us : list unit) (h h' : heap) : Prop :=
  (forall u p, u ∈ us -> p ∈ unit_slots u -> get h' p = (k u * get h p)%R) /\
  forall p, (forall u, u ∈ us -> p ∉ unit_slots u) -> get h' p = get h p.
(** every unit exists in the parameters and in the gradients *)
Definition units_allocated (us : list unit) (w h : heap) : Prop := Forall (fun u => allocated w (unit_slots u) /\ allocated h (unit_slots u)) us.

(** arXiv 2102.06171: G := lambda max(|W|,eps)/|G| G when |G|/max(|W|,eps) > lambda *)
Definition agc_factor (lambda eps : R) (w h : heap) (u : unit) : R :=
  if decide (lambda * size_w w eps u < gnorm h (unit_slots u))%R then (lambda * size_w w eps u / gnorm h (unit_slots u))%R else 1%R.

(** convolutions that are not trained by their scores *)
Definition no_conv_scores (m : model) : Prop := Forall (fun f => cv_mode (c_cfg f) <> EDGE_POPUP) (cls m ++ concat (rls m)).
