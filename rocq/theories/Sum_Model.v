(** Model of the gradient sums of src/math_functions.c and of their multithreaded reductions, over exact reals (C: float).

    A piece of code is a program: a tree of single reads and writes of gradient entries, with threads.  [run] executes the threads
    one after the other; [step] is one step of any thread, so that its sequences are all interleavings.  A read or write outside an
    array cannot step.  Configuration fields (sizes, flags, pointers) are only read by this code and are not part of the heap. *)
From Verif Require Import NumLib Upd_Model Net_Model.
Open Scope nat_scope.

Inductive prog :=
  | Done
  | Read (a : nat) (nm : name) (i : nat) (k : R -> prog)
  | Write (a : nat) (nm : name) (i : nat) (v : R) (k : prog)
  | Par (p q : prog) (k : prog)      (* pthread_create twice, pthread_join twice, then k *)
  | Fail.                            (* a pointer outside its array *)
Fixpoint seq (p k : prog) : prog :=
  match p with
  | Done => k
  | Read a nm i f => Read a nm i (fun v => seq (f v) k)
  | Write a nm i v q => Write a nm i v (seq q k)
  | Par p q r => Par p q (seq r k)
  | Fail => Fail
  end.

(** a write to entry i of an array *)
Definition put (h : heap) (a : nat) (nm : name) (i : nat) (v : R) : option heap := l ← wr (h a nm) i v; Some (hset h a nm l).
(** sequential execution *)
Fixpoint run (p : prog) (h : heap) : option heap :=
  match p with
  | Done => Some h
  | Read a nm i f => v ← rd (h a nm) i; run (f v) h
  | Write a nm i v k => h ← put h a nm i v; run k h
  | Par p q k => h ← run p h; h ← run q h; run k h
  | Fail => None
  end.
(** one step of one thread *)
Inductive step : prog * heap -> prog * heap -> Prop :=
  | step_read a nm i f h v : rd (h a nm) i = Some v -> step (Read a nm i f, h) (f v, h)
  | step_write a nm i v k h h' : put h a nm i v = Some h' -> step (Write a nm i v k, h) (k, h')
  | step_left p q k h p' h' : step (p, h) (p', h') -> step (Par p q k, h) (Par p' q k, h')
  | step_right p q k h q' h' : step (q, h) (q', h') -> step (Par p q k, h) (Par p q' k, h')
  | step_join k h : step (Par Done Done k, h) (k, h).

(** for(i = i0; i < i0+n; i++) body *)
Fixpoint loop (n i0 : nat) (body : nat -> prog) : prog := match n with 0 => Done | S n => seq (body i0) (loop n (S i0) body) end.
(** x = a[i] *)
Definition at_ {A} (l : list A) (i : nat) (k : A -> prog) : prog := match l !! i with Some x => k x | None => Fail end.
Definition when (b : bool) (p : prog) : prog := if b then p else Done.
(** for(i = 0; i < n; i++) body(a[i], b[i], c[i]) with n the number of entries of a *)
Definition over3 {A} (a b c : list A) (body : A -> A -> A -> prog) : prog :=
  loop (length a) 0 (fun i => at_ a i (fun x => at_ b i (fun y => at_ c i (fun z => body x y z)))).

(** math_functions.c:859-864 sum1D(input1,input2,output,size) on the gradient arrays nm of three layers (possibly the same) *)
Definition sum_arrays (a1 a2 a3 : nat) (nm : name) (n : nat) : prog :=
  loop n 0 (fun i => Read a1 nm i (fun x => Read a2 nm i (fun y => Write a3 nm i (x + y)%R Done))).
(** math_functions.c:1037-1062 sum_fully_connected_layers_partial_derivatives, body of the loop; sizes and flags come from m *)
Definition add_fcl (f f2 f3 : fnode) : prog :=
  let c := f_cfg f in let add := sum_arrays (f_at f) (f_at f2) (f_at f3) in
  when (bool_decide (fl_mode c <> FREEZE_TRAINING))
    (seq (when (bool_decide (fl_only_dropout c = false /\ fl_mode c <> EDGE_POPUP /\ fl_mode c <> ONLY_FF))
            (seq (add Weights (fl_in c * fl_out c)) (add Biases (fl_out c))))
    (seq (when (bool_decide (fl_only_dropout c = false /\ (f_edge f = true \/ fl_mode c = EDGE_POPUP))) (add Scores (fl_out c * fl_in c)))
         (match fl_norm c with Some b => add (Gamma 0) (bnl_dim b) | None => Done end))).
(** math_functions.c:994-1026 sum_convolutional_layers_partial_derivatives, body of the loop.  The sizes come from m3 in C; here from
    m (the three models are copies of each other) *)
Definition add_cl (f f2 f3 : cnode) : prog :=
  let c := c_cfg f in let add := sum_arrays (c_at f) (c_at f2) (c_at f3) in
  when (bool_decide (cv_mode c <> FREEZE_TRAINING))
    (seq (when (bool_decide (cv_mode c <> EDGE_POPUP /\ cv_mode c <> ONLY_FF /\ cv_conv c = true))
            (seq (loop (cv_kernels c) 0 (fun k => add (Kernel k) (cv_channels c * cv_rows c * cv_cols c)))
            (seq (add Biases (cv_kernels c))
                 (loop (length (cv_group c)) 0 (fun k => at_ (cv_group c) k (fun b => seq (add (Beta k) (bnl_dim b)) (add (Beta k) (bnl_dim b))))))))
         (when (bool_decide (cv_conv c = true /\ cv_mode c = EDGE_POPUP)) (add Scores (cv_kernels c * cv_channels c * cv_rows c * cv_cols c)))).
(** math_functions.c:950-983 sum_residual_layers_partial_derivatives, body of the loops *)
Definition add_residual (f f2 f3 : cnode) : prog :=
  let c := c_cfg f in let add := sum_arrays (c_at f) (c_at f2) (c_at f3) in
  let d := bool_decide (cv_mode c <> EDGE_POPUP /\ cv_mode c <> ONLY_FF /\ cv_conv c = true) in
  let e := bool_decide (cv_conv c = true /\ (c_edge f = true \/ cv_mode c = EDGE_POPUP)) in
  when (bool_decide (cv_mode c <> FREEZE_TRAINING))
    (when (d || e)
      (seq (when d (loop (cv_kernels c) 0 (fun k => add (Kernel k) (cv_channels c * cv_rows c * cv_cols c))))
      (seq (when d (add Biases (cv_kernels c)))
      (seq (when e (add Scores (cv_kernels c)))
           (loop (length (cv_group c)) 0 (fun k => at_ (cv_group c) k (fun b => seq (add (Beta k) (bnl_dim b)) (add (Beta k) (bnl_dim b))))))))).
(** math_functions.c:1072-1103 sum_lstm_layers_partial_derivatives, body of the loop *)
Definition add_lstm (f f2 f3 : lnode) : prog :=
  let c := l_cfg f in let add := sum_arrays (l_at f) (l_at f2) (l_at f3) in
  when (bool_decide (ls_mode c <> FREEZE_TRAINING))
    (seq (loop 4 0 (fun j =>
            if decide (ls_mode c = GRADIENT_DESCENT) then seq (add (W j) (ls_out c * ls_in c)) (seq (add (U j) (ls_out c * ls_out c)) (add (LBiases j) (ls_out c)))
            else when (bool_decide (ls_mode c = EDGE_POPUP)) (seq (add (WScores j) (ls_out c * ls_in c)) (add (UScores j) (ls_out c * ls_out c)))))
         (loop (length (l_bns f)) 0 (fun k => at_ (l_bns f) k (fun b => seq (add (Gamma k) (bnl_dim b)) (add (Beta k) (bnl_dim b)))))).
(** math_functions.c:1145-1153 sum_model_partial_derivatives *)
Definition add_model (m m2 m3 : model) : prog :=
  seq (over3 (fcls m) (fcls m2) (fcls m3) add_fcl)
  (seq (over3 (cls m) (cls m2) (cls m3) add_cl)
       (over3 (rls m) (rls m2) (rls m3) (fun cs cs2 cs3 => over3 cs cs2 cs3 add_residual))).
(** math_functions.c:1156-1166 sum_dueling_categorical_dqn_partial_derivatives *)
Definition add_dqn (d d2 d3 : dqn) : prog :=
  seq (add_model (shared_hidden d) (shared_hidden d2) (shared_hidden d3))
  (seq (add_model (v_hidden d) (v_hidden d2) (v_hidden d3))
  (seq (add_model (v_linear d) (v_linear d2) (v_linear d3))
  (seq (add_model (a_hidden d) (a_hidden d2) (a_hidden d3))
       (add_model (a_linear d) (a_linear d2) (a_linear d3))))).
(** math_functions.c:1177-1182 sum_models_partial_derivatives(sum_m,models,n_models) *)
Definition add_models (sum_m : model) (models : list model) : prog :=
  loop (length models) 0 (fun i => at_ models i (fun m => add_model m sum_m sum_m)).
(** math_functions.c:1193-1219 sum_rmodel_partial_derivatives(m,m2,m3), sum_rmodels_partial_derivatives(m,m2,n_models) *)
Definition add_rmodel (m m2 m3 : list lnode) : prog := over3 m m2 m3 add_lstm.
Definition add_rmodels (m : list lnode) (ms : list (list lnode)) : prog :=
  loop (length ms) 0 (fun i => at_ ms i (fun m2 => add_rmodel m m2 m)).
(** math_functions.c:1221-1228 sum_vae_model_partial_derivatives *)
Definition add_vae (v v2 v3 : vae) : prog :=
  seq (add_model (vae_encoder v) (vae_encoder v2) (vae_encoder v3)) (add_model (vae_decoder v) (vae_decoder v2) (vae_decoder v3)).

(** multi_core_model.c:431-475 sum_models_partial_derivatives_multithread(batch_m,m,n,depth) and
    multi_core_dueling_categorical_dqn.c:282-336.  [add x y z] stores x+y in z, [acc x m] adds x to m (called with different
    argument orders by the two).  Each thread calls the function again with m = its batch_m[0] (multi_core_model.c:38-42,
    multi_core_dueling_categorical_dqn.c:105-109).  [fuel] bounds the recursion depth; n is enough *)
Section reduce.
Context {T : Type} (add : T -> T -> T -> prog) (acc : T -> T -> prog).
Fixpoint reduce (fuel : nat) (batch : list T) (m : T) (n depth : nat) : prog :=
  if decide (depth = 0 /\ n <= 3) then loop n 0 (fun i => at_ batch i (fun x => acc x m))
  else match n with
  | 0 | 1 => Done
  | 2 => at_ batch 0 (fun b0 => at_ batch 1 (fun b1 => add b0 b1 b0))
  | 3 => at_ batch 0 (fun b0 => at_ batch 1 (fun b1 => at_ batch 2 (fun b2 => seq (acc b1 b0) (acc b2 b0))))
  | _ =>
    match fuel with
    | 0 => Fail
    | S fuel =>
      let size := n / 2 in
      at_ batch 0 (fun t1 => at_ batch size (fun t2 =>
        Par (reduce fuel batch t1 size (S depth)) (reduce fuel (drop size batch) t2 (n - size) (S depth))
          (seq (add t1 t2 t1) (if decide (depth = 0) then add t1 m m else Done))))
    end
  end.
End reduce.
(** multi_core_model.c:431-475 *)
Definition sum_models_multithread (batch : list model) (m : model) : prog :=
  reduce add_model (fun x m => add_model x m m) (length batch) batch m (length batch) 0.
(** multi_core_dueling_categorical_dqn.c:282-336 *)
Definition sum_dqns_multithread (batch : list dqn) (m : dqn) : prog :=
  reduce add_dqn (fun x m => add_dqn m x m) (length batch) batch m (length batch) 0.
