(** Model of the dropout functions of src/utils.c:48-71, of the inference / training switch of
    src/fully_connected_layers.c:2717-2773 and of the vector layer src/vector.c, over exact reals (C: float).
    Random draws r2() (initialization.c:28-30, rand()/RAND_MAX) are an oracle: [draw i] is the i-th call.
    [None] is undefined behaviour or exit(1).  Sizes are natural numbers (C: int, assumed not negative). *)
From Verif Require Import NumLib Act_Model Loss_Model Softmax_Model FC_Model Attn_Model.
Open Scope nat_scope.

(** utils.c:48-54 *)
Definition get_dropout_array (size : nat) (mask input output : list R) : option (list R) :=
  map2_array (fun m x => Some (m * x)%R) mask input output size.
(** utils.c:64-71: nothing is written when the draw is not below the threshold *)
Definition set_dropout_mask (draw : nat -> R) (size : nat) (mask : list R) (threshold : R) : option (list R) :=
  for_loop size 0 (fun i m => if decide (draw i < threshold)%R then wr m i 0%R else Some m) mask.
(** llab.h: NO_DROPOUT 0, DROPOUT 1, DROPOUT_TEST 2 *)
Definition NO_DROPOUT := 0. Definition DROPOUT := 1. Definition DROPOUT_TEST := 2.
(** fully_connected_layers.c:2717-2720, 2726-2729 inference_fcl and 2769-2772 train_fcl on (dropout_flag, dropout_threshold) *)
Definition inference_dropout (s : nat * R) : nat * R := if decide (s.1 = DROPOUT) then (DROPOUT_TEST, 1 - s.2)%R else s.
Definition train_dropout (s : nat * R) : nat * R := if decide (s.1 = DROPOUT_TEST) then (DROPOUT, 1 - s.2)%R else s.
(** fully_connected_layers.c:1364-1377 reset_fcl: the mask is set back to ones *)
Definition reset_mask (size : nat) (mask : list R) : option (list R) := for_loop size 0 (fun i m => wr m i 1%R) mask.

(** llab.h: the codes *)
Definition NO_ACTION := 0. Definition ADDITION := 1. Definition SUBTRACTION := 2. Definition MULTIPLICATION := 3.
Definition RESIZE := 4. Definition CONCATENATE := 5. Definition DIVISION := 6. Definition INVERSE := 7.
Definition CHANGE_SIGN := 8. Definition GET_MAX := 9.
Definition NO_ACTIVATION := 0. Definition SIGMOID := 1. Definition RELU := 2. Definition SOFTMAX := 3.
Definition TANH := 4. Definition LEAKY_RELU := 5. Definition ELU := 6.

(** vector.h vector_struct; [vv] is the pointer v, possibly NULL *)
Record vec := Vec { vv : option (list R); v_size : nat; output_size : nat; action : nat; activation_flag : nat;
  dropout_flag : nat; vindex : nat; dropout_threshold : R; output : list R; input_error : list R; input_size : nat }.
Definition with_v (x : vec) a := Vec a (v_size x) (output_size x) (action x) (activation_flag x) (dropout_flag x) (vindex x) (dropout_threshold x) (output x) (input_error x) (input_size x).
Definition with_output (x : vec) a := Vec (vv x) (v_size x) (output_size x) (action x) (activation_flag x) (dropout_flag x) (vindex x) (dropout_threshold x) a (input_error x) (input_size x).
Definition with_error (x : vec) a := Vec (vv x) (v_size x) (output_size x) (action x) (activation_flag x) (dropout_flag x) (vindex x) (dropout_threshold x) (output x) a (input_size x).
Definition with_action (x : vec) a := Vec (vv x) (v_size x) (output_size x) a (activation_flag x) (dropout_flag x) (vindex x) (dropout_threshold x) (output x) (input_error x) (input_size x).

(** vector.c:43-60; for RESIZE the output pointer stays uninitialised: an empty array here *)
Definition create_vector (v : option (list R)) (vs os ac af df idx : nat) (thr : R) (is : nat) : vec :=
  Vec v vs os ac af df idx thr (if decide (ac = RESIZE) then [] else replicate os 0%R) (replicate is 0%R) is.
(** vector.c:71-80 *)
Definition reset_vector (x : vec) : option vec :=
  if decide (action x <> RESIZE) then o ← for_loop (output_size x) 0 (fun i o => wr o i 0%R) (output x); Some (with_output x o)
  else e ← for_loop (input_size x) 0 (fun i o => wr o i 0%R) (input_error x); Some (with_error x e).
(** math_functions.c:801-806; [None]: division by zero *)
Definition inverse (input output : list R) (size : nat) : option (list R) :=
  for_loop size 0 (fun i out => x ← rd input i; if decide (x = 0%R) then None else wr out i (1 / x)%R) output.
(** vector.c:354-362: the position of the maximum, starting from index -1 (here None) and max -1 *)
Definition get_max (input : list R) (size : nat) : option (option nat) :=
  r ← for_loop size 0 (fun i (s : option nat * R) => x ← rd input i; Some (if decide (x > s.2)%R then (Some i, x) else s)) (None, (-1)%R);
  Some r.1.

(** "if(v->output_size != v->v_size) exit(1)" *)
Definition same_size (x : vec) (k : option vec) : option vec := if decide (output_size x = v_size x) then k else None.
Definition put_output (x : vec) (o : option (list R)) : option vec := o ← o; Some (with_output x o).

(** vector.c:284-388 ff_vector with input2 == NULL; for RESIZE the output array becomes an alias of
    &input1[index] (here: its value) *)
Definition ff_vector1 (draw : nat -> R) (input1 : list R) (x : vec) : option vec :=
  let n := output_size x in
  if decide (dropout_flag x = DROPOUT) then
    if decide (v_size x = n) then
      v0 ← vv x; v1 ← for_loop (v_size x) 0 (fun i m => wr m i 1%R) v0;
      v2 ← set_dropout_mask draw n v1 (dropout_threshold x);
      put_output (with_v x (Some v2)) (dot1D input1 v2 (output x) n)
    else None
  else if decide (dropout_flag x = DROPOUT_TEST) then put_output x (mul_value input1 (1 - dropout_threshold x)%R (output x) n)
  else if decide (action x = ADDITION) then same_size x (v ← vv x; put_output x (sum1D input1 v (output x) n))
  else if decide (action x = SUBTRACTION) then same_size x (v ← vv x; put_output x (sub1D input1 v (output x) n))
  else if decide (action x = MULTIPLICATION) then same_size x (v ← vv x; put_output x (dot1D input1 v (output x) n))
  else if decide (action x = DIVISION) then same_size x (v ← vv x; put_output x (div1D input1 v (output x) n))
  else if decide (action x = INVERSE) then same_size x (put_output x (inverse input1 (output x) n))
  else if decide (action x = CHANGE_SIGN) then same_size x (put_output x (mul_value input1 (-1)%R (output x) n))
  else if decide (action x = GET_MAX) then same_size x (r ← get_max input1 n; i ← r; put_output x (wr (output x) i 1%R))
  else if decide (action x = RESIZE) then Some (with_output x (drop (vindex x) input1))
  else if decide (activation_flag x = SIGMOID) then put_output x (map_array sigmoid input1 (output x) n)
  else if decide (activation_flag x = TANH) then put_output x (map_array tanhh input1 (output x) n)
  else if decide (activation_flag x = RELU) then put_output x (map_array relu input1 (output x) n)
  else if decide (activation_flag x = LEAKY_RELU) then put_output x (map_array leaky_relu input1 (output x) n)
  else if decide (activation_flag x = ELU) then put_output x (map_array (fun z => elu z 1) input1 (output x) n)
  else if decide (activation_flag x = SOFTMAX) then put_output x (softmax input1 (output x) n)
  else Some x.

(** vector.c:390-415 ff_vector with two inputs; line 411 is an assignment, so every other action code
    (including NO_ACTION) is turned into CONCATENATE.  An index beyond the output size gives memcpy a negative
    size: None *)
Definition ff_vector2 (input1 input2 : list R) (x : vec) : option vec :=
  let n := output_size x in
  if decide (action x = ADDITION) then same_size x (put_output x (sum1D input1 input2 (output x) n))
  else if decide (action x = SUBTRACTION) then put_output x (sub1D input1 input2 (output x) n)
  else if decide (action x = MULTIPLICATION) then put_output x (dot1D input1 input2 (output x) n)
  else if decide (action x = DIVISION) then put_output x (div1D input1 input2 (output x) n)
  else if decide (vindex x <= n) then
    o ← copy_array input1 0 (output x) 0 (vindex x);
    put_output (with_action x CONCATENATE) (copy_array input2 0 o (vindex x) (n - vindex x))
  else None.

(** the statement f(...,ie+n,...) writing only beyond offset n *)
Definition on_tail (n : nat) (f : list R -> option (list R)) (ie : list R) : option (list R) :=
  if decide (n <= length ie) then t ← f (drop n ie); Some (take n ie ++ t) else None.
(** mul_value(a,value,a,size) (math_functions.c:889-894 with output = input) *)
Definition mul_value_inplace (value : R) (size : nat) (a : list R) : option (list R) :=
  for_loop size 0 (fun i a => x ← rd a i; wr a i (x * value)%R) a.
Definition div_inplace (b : list R) (size : nat) (a : list R) : option (list R) :=
  map2_inplace (fun a b => if decide (b = 0%R) then None else Some (a / b)%R) a b size.

(** the result of bp_vector: the returned array, and the vector with its new input_error *)
Definition own_error (x : vec) (e : option (list R)) : option (list R * vec) := e ← e; Some (e, with_error x e).
(** vector.c:466-470 and the same shape below: temp = derivative(input1); input_error = temp*output_error *)
Definition through (f' : R -> R) (input1 oe : list R) (x : vec) : option (list R * vec) :=
  own_error x (t ← map_array f' input1 (replicate (output_size x) 0%R) (output_size x); dot1D t oe (input_error x) (output_size x)).
(** vector.c:421-495, 516 bp_vector with input2 == NULL.  Line 427 compares the action (not the dropout
    flag) with DROPOUT = 1 = ADDITION, a code that has already returned at line 423. *)
Definition bp_vector1 (input1 : list R) (x : vec) (oe : list R) : option (list R * vec) :=
  let n := output_size x in
  if decide (action x = ADDITION \/ action x = CONCATENATE) then Some (oe, x)
  else if decide (action x = DROPOUT) then own_error x (v ← vv x; dot1D oe v (input_error x) n)
  else if decide (action x = MULTIPLICATION) then
    if decide (n = v_size x) then own_error x (v ← vv x; dot1D oe v (input_error x) n) else None
  else if decide (action x = DIVISION) then
    if decide (n = v_size x) then own_error x (v ← vv x; div1D oe v (input_error x) n) else None
  else if decide (action x = SUBTRACTION) then Some (oe, x)
  else if decide (action x = INVERSE) then
    own_error x (e ← div1D oe input1 (input_error x) n; e ← div_inplace input1 n e; mul_value_inplace (-1) n e)
  else if decide (action x = CHANGE_SIGN) then own_error x (mul_value oe (-1)%R (input_error x) n)
  else if decide (action x = RESIZE) then own_error x (copy_array oe 0 (input_error x) (vindex x) (min n (input_size x)))
  else if decide (activation_flag x = SIGMOID) then through derivative_sigmoid input1 oe x
  else if decide (activation_flag x = TANH) then through derivative_tanhh input1 oe x
  else if decide (activation_flag x = RELU) then through derivative_relu input1 oe x
  else if decide (activation_flag x = LEAKY_RELU) then through derivative_leaky_relu input1 oe x
  else if decide (activation_flag x = ELU) then through (fun z => derivative_elu z 1) input1 oe x
  else if decide (activation_flag x = SOFTMAX) then own_error x (derivative_softmax (input_error x) (output x) oe n)
  else Some (input_error x, x).

(** vector.c:421-424, 497-516 bp_vector with two inputs *)
Definition bp_vector2 (input1 input2 : list R) (x : vec) (oe : list R) : option (list R * vec) :=
  let n := output_size x in
  if decide (action x = ADDITION \/ action x = CONCATENATE) then Some (oe, x)
  else if decide (action x = MULTIPLICATION) then
    own_error x (e ← dot1D oe input2 (input_error x) n; on_tail n (fun t => dot1D oe input1 t n) e)
  else if decide (action x = DIVISION) then
    own_error x (e ← div1D oe input2 (input_error x) n;
      e ← on_tail n (fun t => dot1D oe input1 t n) e;
      e ← on_tail n (div_inplace input2 n) e;
      e ← on_tail n (div_inplace input2 n) e;
      on_tail n (mul_value_inplace (-1) n) e)
  else if decide (action x = SUBTRACTION) then
    own_error x (e ← copy_array oe 0 (input_error x) 0 n; on_tail n (fun t => mul_value oe (-1)%R t n) e)
  else Some (input_error x, x).

(** the bytes written by save_vector (vector.c:102-207) and read by load_vector (209-282), as a list of fields in
    file order; the file is opened in append mode and fully written *)
Inductive field := FInt (n : nat) | FFloat (r : R) | FFloats (l : list R).
Definition save_vector (x : vec) : list field :=
  [FInt (input_size x); FInt (v_size x); FInt (output_size x); FInt (action x); FInt (activation_flag x);
   FInt (dropout_flag x); FInt (vindex x); FFloat (dropout_threshold x)] ++
  match vv x with None => [FInt 1] | Some v => [FInt 0; FFloats (take (v_size x) v)] end.
(** vector.c:272-281: the array read at line 274 goes to a variable that shadows v, so create_vector receives NULL *)
Definition load_vector (fs : list field) : option (vec * list field) :=
  match fs with
  | FInt is :: FInt vs :: FInt os :: FInt ac :: FInt af :: FInt df :: FInt ix :: FFloat thr :: FInt is_null :: rest =>
      if decide (is_null <> 0) then Some (create_vector None vs os ac af df ix thr is, rest)
      else match rest with
           | FFloats v :: rest => if decide (length v = vs) then Some (create_vector None vs os ac af df ix thr is, rest) else None
           | _ => None
           end
  | _ => None
  end.
(** vector.c:83-90 copy_vector *)
Definition copy_vector (x : vec) : vec :=
  create_vector (match vv x with None => None | Some v => Some (take (v_size x) v) end) (v_size x) (output_size x) (action x)
    (activation_flag x) (dropout_flag x) (vindex x) (dropout_threshold x) (input_size x).
