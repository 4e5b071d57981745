(** Model of the dense-network part of src/model.c over exact reals (C: float): ff_cl_fcl / ff_fcl_fcl / bp_cl_fcl /
    bp_fcl_fcl, the loops of model_tensor_input_ff / model_tensor_input_bp for a model whose layers are all
    fully connected (sla[i][0] == FCLS, one layer per level), reset_fcl, compute_model_error and
    ff_error_bp_model_once.  Modelled: feed_forward_flag FULLY_FEED_FORWARD, no noisy parameters, training modes
    GRADIENT_DESCENT, FREEZE_TRAINING and FREEZE_BIASES.  The normalization kernels are parameters [nf] / [nb]
    (they are modelled in Norm_Model.v); gamma and beta are left out.  [None] is undefined behaviour or exit(1).
    The random draws for layer k are [draw k]. *)
From Verif Require Import NumLib Act_Model Loss_Model Softmax_Model FC_Model Attn_Model Vec_Model.
Open Scope nat_scope.

(** llab.h:97-101, 162-166 *)
Definition NO_NORMALIZATION := 0. Definition LOCAL_RESPONSE_NORMALIZATION := 1. Definition LAYER_NORMALIZATION := 4.
Definition GRADIENT_DESCENT := 1. Definition FREEZE_TRAINING := 4. Definition FREEZE_BIASES := 5.

(** llab.h struct fcl: input, output, weights, biases, d_weights, d_biases, activation_flag, normalization_flag,
    dropout_flag, dropout_threshold, training_mode, pre_activation, post_activation, post_normalization,
    dropout_mask, dropout_temp, temp, temp3, error2, active_output_neurons.  A NULL array is []. *)
Record fcl := Fcl { fi : nat; fo : nat; weights : list R; biases : list R; dw : list R; db : list R;
  act : nat; nrm : nat; dflag : nat; thr : R; mode : nat;
  pre : list R; post : list R; postn : list R; mask : list R; dtemp : list R;
  temp : list R; temp3 : list R; err2 : list R; activ : list Z }.
Definition set_ff (f : fcl) a b c d e := Fcl (fi f) (fo f) (weights f) (biases f) (dw f) (db f) (act f) (nrm f) (dflag f) (thr f) (mode f)
  a b c d e (temp f) (temp3 f) (err2 f) (activ f).
Definition set_bp (f : fcl) w b t t3 e := Fcl (fi f) (fo f) (weights f) (biases f) w b (act f) (nrm f) (dflag f) (thr f) (mode f)
  (pre f) (post f) (postn f) (mask f) (dtemp f) t t3 e (activ f).
Definition set_dtemp (f : fcl) e := set_ff f (pre f) (post f) (postn f) (mask f) e.

(** set_vector_with_value (utils.c): every one of the first n entries *)
Definition fill (v : R) (n : nat) (l : list R) : option (list R) := for_loop n 0 (fun i l => wr l i v) l.
(** fully_connected_layers.c:1359-1408 reset_fcl (without edge popup, noise and layer_norm; temp2 is never used here) *)
Definition reset_fcl (f : fcl) : option fcl :=
  a ← fill 0 (fo f) (pre f);
  b ← (if decide (act f <> NO_ACTIVATION) then fill 0 (fo f) (post f) else Some (post f));
  c ← (if decide (nrm f = LAYER_NORMALIZATION \/ nrm f = LOCAL_RESPONSE_NORMALIZATION) then fill 0 (fo f) (postn f) else Some (postn f));
  d ← fill 0 (fo f) (db f);
  m ← (if decide (dflag f <> NO_DROPOUT) then fill 1 (fo f) (mask f) else Some (mask f));
  e ← (if decide (dflag f <> NO_DROPOUT) then fill 1 (fo f) (dtemp f) else Some (dtemp f));
  t ← fill 0 (fo f) (temp f); t3 ← fill 0 (fo f) (temp3 f); e2 ← fill 0 (fi f) (err2 f);
  w ← fill 0 (fi f * fo f) (dw f);
  Some (set_bp (set_ff f a b c m e) w d t t3 e2).

Section norm.
  (** nf f input out: the forward normalization of layer f; nb f input error out: its backward kernel *)
  Context (nf : fcl -> list R -> list R -> option (list R)) (nb : fcl -> list R -> list R -> list R -> option (list R)).

  (** model.c:1409-1434 (= 2786-2815) *)
  Definition activate (f : fcl) (z : list R) : option (list R) :=
    let n := fo f in
    if decide (act f = SIGMOID) then map_array sigmoid z (post f) n
    else if decide (act f = RELU) then map_array relu z (post f) n
    else if decide (act f = ELU) then map_array (fun z => elu z 1) z (post f) n
    else if decide (act f = SOFTMAX) then softmax z (post f) n
    else if decide (act f = TANH) then map_array tanhh z (post f) n
    else if decide (act f = LEAKY_RELU) then map_array leaky_relu z (post f) n
    else Some (post f).
  (** model.c:1363 (the dense kernel on the chosen input array x), 1409-1461; the same as 2764, 2786-2848 of ff_cl_fcl *)
  Definition forward_layer (draw : nat -> R) (x : list R) (f : fcl) : option fcl :=
    a ← fc_feed_forward x (pre f) (weights f) (Some (biases f)) (fi f) (fo f);
    b ← activate f a;
    c ← (if decide (nrm f = LAYER_NORMALIZATION \/ nrm f = LOCAL_RESPONSE_NORMALIZATION)
         then nf f (if decide (act f = NO_ACTIVATION) then a else b) (postn f) else Some (postn f));
    if decide (dflag f = NO_DROPOUT) then Some (set_ff f a b c (mask f) (dtemp f)) else
    m ← set_dropout_mask draw (fo f) (mask f) (thr f);
    if decide (dflag f = DROPOUT) then
      e ← get_dropout_array (fo f) m
            (if decide (nrm f = LAYER_NORMALIZATION) then c else if decide (act f = NO_ACTIVATION) then a else b) (dtemp f);
      Some (set_ff f a b c m e)
    else Some (set_ff f a b c m (dtemp f)).

  (** model.c:1256-1406: f1 after the call (its dropout_temp is written in test mode) and the array given to the
      dense kernel.  Lines 1288 and 1339 read f2's arrays. *)
  Definition hand_over (f1 f2 : fcl) : option (fcl * list R) :=
    let scaled a := e ← mul_value a (thr f1) (dtemp f1) (fi f2); Some (set_dtemp f1 e, e) in
    if decide (nrm f1 = LAYER_NORMALIZATION \/ nrm f1 = LOCAL_RESPONSE_NORMALIZATION) then
      if decide (dflag f1 = NO_DROPOUT) then Some (f1, postn f1)
      else if decide (dflag f1 = DROPOUT) then Some (f1, dtemp f1)
      else scaled (postn f2)
    else if decide (act f1 = NO_ACTIVATION) then
      if decide (dflag f1 = NO_DROPOUT) then Some (f1, pre f1)
      else if decide (dflag f1 = DROPOUT) then Some (f1, dtemp f1)
      else scaled (pre f2)
    else
      if decide (dflag f1 = NO_DROPOUT) then Some (f1, post f1)
      else if decide (dflag f1 = DROPOUT) then Some (f1, dtemp f1)
      else scaled (post f1).
  (** model.c:1240-1463 ff_fcl_fcl *)
  Definition ff_fcl_fcl (draw : nat -> R) (f1 f2 : fcl) : option (fcl * fcl) :=
    if decide (fo f1 = fi f2) then h ← hand_over f1 f2; f2' ← forward_layer draw h.2 f2; Some (h.1, f2') else None.
  (** model.c:2736-2849 ff_cl_fcl with the input tensor as f1 *)
  Definition ff_cl_fcl (draw : nat -> R) (input : list R) (f : fcl) : option fcl :=
    if decide (length input = fi f) then forward_layer draw input f else None.
  (** model.c:7171-7262: softmax is accepted only on the last layer *)
  Fixpoint ff_rest (draw : nat -> nat -> R) (k : nat) (prev : fcl) (fs : list fcl) : option (list fcl) :=
    match fs with
    | [] => Some [prev]
    | f :: fs => if decide (act f = SOFTMAX /\ fs <> []) then None else
        p ← ff_fcl_fcl (draw k) prev f; r ← ff_rest draw (S k) p.2 fs; Some (p.1 :: r)
    end.
  Definition model_ff (draw : nat -> nat -> R) (input : list R) (fs : list fcl) : option (list fcl) :=
    match fs with
    | [] => Some []
    | f :: fs => if decide (act f = SOFTMAX /\ fs <> []) then None else
        p ← ff_cl_fcl (draw 0) input f; ff_rest draw 1 p fs
    end.

  (** model.c:271-285: the array that m->output_layer points to *)
  Definition output_layer (f : fcl) : list R :=
    if decide (dflag f <> NO_DROPOUT) then dtemp f
    else if decide (nrm f = LAYER_NORMALIZATION \/ nrm f = LOCAL_RESPONSE_NORMALIZATION) then postn f
    else if decide (act f <> NO_ACTIVATION) then post f else pre f.
  Definition model_output (fs : list fcl) : list R := match list.last fs with Some f => output_layer f | None => [] end.

  (** model.c:3760-3781, 3816-3837: temp3 := normalization backward of e; temp := temp3; temp3 := 0 *)
  Definition norm_backward (f : fcl) (e t t3 : list R) : option (list R * list R) :=
    if decide (nrm f = LAYER_NORMALIZATION \/ nrm f = LOCAL_RESPONSE_NORMALIZATION) then
      t3 ← nb f (if decide (act f = NO_ACTIVATION) then pre f else post f) e t3;
      t ← copy_array t3 0 t 0 (fo f); t3 ← fill 0 (fo f) t3; Some (t, t3)
    else Some (t, t3).
  (** derivative_*_array(...,temp3); dot1D(temp3,e,temp) *)
  Definition times (d : R -> R) (a e t t3 : list R) (n : nat) : option (list R * list R) :=
    t3 ← map_array d a t3 n; t ← dot1D t3 e t n; Some (t, t3).
  (** the same when e is temp itself *)
  Definition times_temp (d : R -> R) (a t t3 : list R) (n : nat) : option (list R * list R) :=
    t3 ← map_array d a t3 n; t ← for_loop n 0 (fun i t => x ← rd t3 i; y ← rd t i; wr t i (x * y)%R) t; Some (t, t3).
  (** model.c:3757-3813: f2 has dropout.  Result: the output error given to the dense kernel, temp, temp3 *)
  Definition error_dropout (f : fcl) (e : list R) : option (list R * list R * list R) :=
    let n := fo f in
    t ← dot1D e (mask f) (temp f) n;
    r ← norm_backward f t t (temp3 f);
    r ← (if decide (act f = SIGMOID) then times_temp derivative_sigmoid_given_the_sigmoid (post f) r.1 r.2 n
         else if decide (act f = RELU) then times_temp derivative_relu (pre f) r.1 r.2 n
         else if decide (act f = ELU) then times_temp (fun z => derivative_elu z 1) (pre f) r.1 r.2 n
         else if decide (act f = SOFTMAX) then t3 ← derivative_softmax_array (activ f) r.2 (post f) r.1 n; t ← copy_array t3 0 r.1 0 n; Some (t, t3)
         else if decide (act f = TANH) then times_temp derivative_tanhh (pre f) r.1 r.2 n
         else if decide (act f = LEAKY_RELU) then times_temp derivative_leaky_relu (pre f) r.1 r.2 n
         else Some r);
    Some (r.1, r.1, r.2).
  (** model.c:3815-3881: f2 without dropout.  After the normalization step every branch uses [error] again, not
      temp.  [alias]: bp_fcl_fcl (line 3880) points temp to error for NO_ACTIVATION, bp_cl_fcl (6761) copies it. *)
  Definition error_plain (alias : bool) (f : fcl) (e : list R) : option (list R * list R * list R) :=
    let n := fo f in
    r ← norm_backward f e (temp f) (temp3 f);
    let via (s : option (list R * list R)) := s ← s; Some (s.1, s.1, s.2) in
    if decide (act f = SIGMOID) then via (times derivative_sigmoid_given_the_sigmoid (post f) e r.1 r.2 n)
    else if decide (act f = RELU) then via (times derivative_relu (pre f) e r.1 r.2 n)
    else if decide (act f = ELU) then via (times (fun z => derivative_elu z 1) (pre f) e r.1 r.2 n)
    else if decide (act f = SOFTMAX) then via (t ← derivative_softmax_array (activ f) r.1 (post f) e n; Some (t, r.2))
    else if decide (act f = TANH) then via (times derivative_tanhh (pre f) e r.1 r.2 n)
    else if decide (act f = LEAKY_RELU) then via (times derivative_leaky_relu (pre f) e r.1 r.2 n)
    else if alias then Some (e, r.1, r.2)
    else via (t ← copy_array e 0 r.1 0 n; Some (t, r.2)).
  (** model.c:3883-3996: weight, bias and input errors from the input array x; FREEZE_BIASES passes NULL bias errors *)
  Definition backward_layer (alias : bool) (x : list R) (f : fcl) (e : list R) : option (list R * fcl) :=
    r ← (if decide (dflag f <> NO_DROPOUT) then error_dropout f e else error_plain alias f e);
    if decide (mode f = GRADIENT_DESCENT \/ mode f = FREEZE_TRAINING) then
      s ← fc_back_prop x r.1.1 (weights f) (dw f, err2 f, Some (db f)) (fi f) (fo f) (bool_decide (mode f = FREEZE_TRAINING));
      b ← s.2; Some (s.1.2, set_bp f s.1.1 b r.1.2 r.2 s.1.2)
    else if decide (mode f = FREEZE_BIASES) then
      s ← fc_back_prop x r.1.1 (weights f) (dw f, err2 f, None) (fi f) (fo f) false;
      Some (s.1.2, set_bp f s.1.1 (db f) r.1.2 r.2 s.1.2)
    else None.
  (** model.c:3884, 3911, 3937, 3965: the array of f1 used *)
  Definition taken (f1 : fcl) : list R :=
    if decide (dflag f1 <> NO_DROPOUT) then dtemp f1
    else if decide (nrm f1 <> NO_NORMALIZATION) then postn f1
    else if decide (act f1 <> NO_ACTIVATION) then post f1 else pre f1.
  (** model.c:3753-3998 bp_fcl_fcl; 6654-6885 bp_cl_fcl with the input tensor *)
  Definition bp_fcl_fcl (f1 f2 : fcl) (e : list R) : option (list R * fcl) := backward_layer true (taken f1) f2 e.
  Definition bp_cl_fcl (input : list R) (f2 : fcl) (e : list R) : option (list R * fcl) := backward_layer false input f2 e.
  (** model.c:8101-8234, 8396: from the last layer to the first; returns the input error and the layers *)
  Fixpoint bp_rest (prev : fcl) (fs : list fcl) (e : list R) : option (list R * list fcl) :=
    match fs with
    | [] => Some (e, [])
    | f :: fs => r ← bp_rest f fs e; s ← bp_fcl_fcl prev f r.1; Some (s.1, s.2 :: r.2)
    end.
  Definition output_dimension (fs : list fcl) : nat := match list.last fs with Some f => fo f | None => 0 end.
  Definition model_bp (input : list R) (fs : list fcl) (e : list R) : option (list R * list fcl) :=
    if decide (length e = output_dimension fs) then
      match fs with
      | [] => None
      | f :: fs => r ← bp_rest f fs e; s ← bp_cl_fcl input f r.1; Some (s.1, s.2 :: r.2)
      end
    else None.

  (** llab.h:143-155 *)
  Definition NO_LOSS := 0. Definition CROSS_ENTROPY_LOSS := 1. Definition FOCAL_LOSS := 2. Definition HUBER1_LOSS := 4.
  Definition HUBER2_LOSS := 8. Definition MSE_LOSS := 16. Definition KL_DIVERGENCE_LOSS := 32. Definition ENTROPY_LOSS := 64.
  (** the fields error_flag, error_threshold1, error_threshold2, error_gamma, error_alpha, error of struct model *)
  Record loss := Loss { flag : nat; th1 : R; th2 : R; gam : R; alpha : option (list R); earr : list R }.
  (** model.c:9470-9496 compute_model_error with the *_model_error functions 9185-9464; the policy-gradient and
      inverse-Q errors are not modelled *)
  Definition compute_model_error (s : loss) (y_hat output : list R) (n : nat) : option (list R) :=
    if decide (flag s = NO_LOSS) then copy_array output 0 (earr s) 0 n
    else if decide (flag s = MSE_LOSS) then map2_array (fun a b => Some (derivative_mse a b)) y_hat output (earr s) n
    else if decide (flag s = CROSS_ENTROPY_LOSS) then map2_array derivative_cross_entropy y_hat output (earr s) n
    else if decide (flag s = FOCAL_LOSS) then map2_array (fun a b => Some (derivative_focal_loss a b (gam s))) y_hat output (earr s) n
    else if decide (flag s = HUBER1_LOSS) then map2_array (fun a b => Some (derivative_huber_loss a b (th1 s))) y_hat output (earr s) n
    else if decide (flag s = HUBER2_LOSS) then map2_array (fun a b => Some (derivative_modified_huber_loss a b (th1 s) (th2 s))) y_hat output (earr s) n
    else if decide (flag s = KL_DIVERGENCE_LOSS) then map2_array (fun a b => Some (derivative_kl_divergence a b)) y_hat output (earr s) n
    else if decide (flag s = ENTROPY_LOSS) then map_array derivative_entropy y_hat (earr s) n
    else None.
  (** model.c:9526-9532: the error of an output whose target is not 0 is multiplied by its alpha *)
  Definition weight_error (s : loss) (output err : list R) (n : nat) : option (list R) :=
    match alpha s with
    | None => Some err
    | Some al => for_loop n 0 (fun i err => o ← rd output i; if decide (o = 0%R) then Some err else
        a ← rd al i; e ← rd err i; wr err i (e * a)%R) err
    end.
  (** model.c:9523-9535 ff_error_bp_model_once *)
  Definition ff_error_bp_model_once (draw : nat -> nat -> R) (s : loss) (input output : list R) (fs : list fcl) : option (list R * list fcl) :=
    fs' ← model_ff draw input fs;
    let n := output_dimension fs' in
    err ← compute_model_error s (model_output fs') output n;
    err ← weight_error s output err n;
    model_bp input fs' err.
End norm.
