(** Model of the head of the dueling categorical network, src/dueling_categorical_dqn.c: combination of the value and
    advantage streams, their errors, the q functions and the distributional target.

    The five sub-networks are not run here: their outputs (the arrays v_linear_last_layer->output_layer, of n_atoms
    entries, and a_linear_last_layer->output_layer, of action_size*n_atoms entries) are arguments.  Arrays are lists,
    C's float is an exact real except in [projection], which is written once over any arithmetic and used with the reals
    and with IEEE binary32. *)
From Coq Require Import Reals Lra.
From Coq.Floats Require Import SpecFloat.
From Verif Require Export NumLib.
From Verif Require Export Softmax_Model Vec_Model.
Open Scope R_scope.

(** ** Streams into logits and distributions *)

(** dueling_categorical_dqn.c:1339-1344 (and 1366-1371, 1394-1399, 1422-1427): action_mean_layer *)
Definition action_mean (n actions : nat) (A mean : list R) : option (list R) :=
  for_loop n 0 (fun i mean =>
    mean ← for_loop actions 0 (fun j mean => a ← rd A (j * n + i)%nat; addat mean i (- a)) mean;
    x ← rd mean i; wr mean i (x * (1 / INR actions))) mean.

(** dueling_categorical_dqn.c:1347-1349: copy_array of row i of the advantages into row i of add_layer, then
    sum1D of the row with the value stream and with action_mean_layer, both in place *)
Definition add_row (n i : nat) (A V mean add : list R) : option (list R) :=
  add ← for_loop n 0 (fun k add => a ← rd A (i * n + k)%nat; wr add (i * n + k)%nat a) add;
  add ← for_loop n 0 (fun k add => v ← rd V k; addat add (i * n + k)%nat v) add;
  for_loop n 0 (fun k add => m ← rd mean k; addat add (i * n + k)%nat m) add.

(** dueling_categorical_dqn.c:1339-1351, compute_probability_distribution after the five forward passes (and
    1393-1406, the _opt variant, which differs only in the structure holding the arrays): (mean, add, softmax) *)
Definition distributions (n actions : nat) (A V : list R) (st : list R * list R * list R) : option (list R * list R * list R) :=
  let '(mean, add, sm) := st in
  mean ← action_mean n actions A mean;
  '(add, sm) ← for_loop actions 0 (fun i st => let '(add, sm) := st in
     add ← add_row n i A V mean add;
     sm ← on_tail (i * n)%nat (fun t => softmax (drop (i * n)%nat add) t n) sm;
     Some (add, sm)) (add, sm);
  Some (mean, add, sm).

(** dueling_categorical_dqn.c:1366-1378, compute_probability_distribution_qr_dqn (and 1421-1434): no softmax, the
    combined rows are copied into softmax_layer *)
Definition quantiles (n actions : nat) (A V : list R) (st : list R * list R * list R) : option (list R * list R * list R) :=
  let '(mean, add, sm) := st in
  mean ← action_mean n actions A mean;
  add ← for_loop actions 0 (fun i add => add_row n i A V mean add) add;
  sm ← for_loop (actions * n)%nat 0 (fun k sm => a ← rd add k; wr sm k a) sm;
  Some (mean, add, sm).

(** dueling_categorical_dqn.c:1518-1528 compute_q_functions *)
Definition q_functions (n actions : nat) (sm support q : list R) : option (list R) :=
  for_loop actions 0 (fun i q => for_loop n 0 (fun j q =>
    p ← rd sm (i * n + j)%nat; z ← rd support j; addat q i (p * z)) q) q.
(** dueling_categorical_dqn.c:1530-1540 compute_q_functions_qr_dqn *)
Definition q_functions_qr (n actions : nat) (sm q : list R) : option (list R) :=
  for_loop actions 0 (fun i q => for_loop n 0 (fun j q =>
    p ← rd sm (i * n + j)%nat; addat q i (p / INR n)) q) q.

(** ** Errors of the two streams *)

(** dueling_categorical_dqn.c:1440-1445 bp_dueling_categorical_network (and 1467-1472): derivative_softmax_layer and
    v_linear_layer_error *)
Definition value_error (n actions : nat) (sm error : list R) (st : list R * list R) : option (list R * list R) :=
  for_loop actions 0 (fun i st => let '(d, ve) := st in
    d ← on_tail (i * n)%nat (fun t => derivative_softmax t (drop (i * n)%nat sm) (drop (i * n)%nat error) n) d;
    ve ← for_loop n 0 (fun j ve => x ← rd d (i * n + j)%nat; addat ve j x) ve;
    Some (d, ve)) st.
(** dueling_categorical_dqn.c:1446-1455 (and 1473-1482): a_linear_layer_error, assigned and not accumulated *)
Definition advantage_error (n actions : nat) (d ae : list R) : option (list R) :=
  for_loop actions 0 (fun i ae => for_loop actions 0 (fun j ae => for_loop n 0 (fun k ae =>
    x ← rd d (j * n + k)%nat;
    if decide (i = j) then wr ae (i * n + k)%nat (INR (n - 1) / INR n * x)
    else wr ae (i * n + k)%nat (- 1 / INR n * x)) ae) ae) ae.

(** dueling_categorical_dqn.c:1494-1498 bp_qr_dqn_opt: v_linear_layer_error *)
Definition value_error_qr (n actions : nat) (error ve : list R) : option (list R) :=
  for_loop actions 0 (fun i ve => for_loop n 0 (fun j ve => x ← rd error (i * n + j)%nat; addat ve j x) ve) ve.
(** dueling_categorical_dqn.c:1499-1508 bp_qr_dqn_opt: a_linear_layer_error, accumulated *)
Definition advantage_error_qr (n actions : nat) (error ae : list R) : option (list R) :=
  for_loop actions 0 (fun i ae => for_loop actions 0 (fun j ae => for_loop n 0 (fun k ae =>
    x ← rd error (j * n + k)%nat;
    if decide (i = j) then addat ae (i * n + k)%nat ((1 - 1 / INR n) * x)
    else addat ae (i * n + k)%nat (- 1 / INR n * x)) ae) ae) ae.

(** ** The distributional target, over any arithmetic *)

(** the operations of C's float used by the projection.  [o_div] is undefined where the arithmetic has no value for
    the quotient.  [o_int] is the conversion to int used as an array index: undefined if the value is not a number or
    if the result is negative (an index before the array). *)
Record arith (F : Type) := Arith {
  o_nat : nat -> F; o_add : F -> F -> F; o_sub : F -> F -> F; o_mul : F -> F -> F;
  o_div : F -> F -> option F; o_lt : F -> F -> bool; o_eq : F -> F -> bool; o_int : F -> option nat }.
Arguments Arith {F}. Arguments o_nat {F}. Arguments o_add {F}. Arguments o_sub {F}. Arguments o_mul {F}.
Arguments o_div {F}. Arguments o_lt {F}. Arguments o_eq {F}. Arguments o_int {F}.

(** exact reals; in C a quotient by 0 is an infinity or a NaN, whose conversion to int is undefined *)
Definition reals : arith R := {|
  o_nat := INR; o_add := Rplus; o_sub := Rminus; o_mul := Rmult;
  o_div := fun x y => if decide (y = 0) then None else Some (x / y);
  o_lt := fun x y => bool_decide (x < y); o_eq := fun x y => bool_decide (x = y);
  o_int := fun x => if decide (0 <= x) then Some (Z.to_nat (Int_part x)) else if decide (-1 < x) then Some 0%nat else None |}.

(** IEEE 754 binary32 (24 bits of precision, exponent below 128), round to nearest even, every operation rounded:
    C's float with FLT_EVAL_METHOD 0 and no contraction *)
Definition trunc32 (x : spec_float) : option nat :=
  match x with
  | S754_zero _ => Some 0%nat
  | S754_finite s m e =>
      let v := match e with Zneg p => Z.pos m / 2 ^ Z.pos p | _ => Z.pos m * 2 ^ e end%Z in
      if s then if decide (v = 0%Z) then Some 0%nat else None else Some (Z.to_nat v)
  | _ => None
  end.
Definition float32 : arith spec_float := {|
  o_nat := fun n => binary_normalize 24 128 (Z.of_nat n) 0 false;
  o_add := SFadd 24 128; o_sub := SFsub 24 128; o_mul := SFmul 24 128;
  o_div := fun x y => Some (SFdiv 24 128 x y);
  o_lt := SFltb; o_eq := SFeqb; o_int := trunc32 |}.

(** [a[i] += v] *)
Definition add_at {F} (O : arith F) (l : list F) (i : nat) (v : F) : option (list F) := x ← rd l i; wr l i (o_add O x v).

(** dueling_categorical_dqn.c:130 z_delta *)
Definition spacing {F} (O : arith F) (n : nat) (vmin vmax : F) : option F := o_div O (o_sub O vmax vmin) (o_nat O (n - 1)).
(** dueling_categorical_dqn.c:143-147 support, a malloc'ed array of n_atoms entries (n_atoms > 1 is checked at 30) *)
Definition atoms {F} (O : arith F) (n : nat) (vmin vmax z : F) : list F :=
  map (fun i => o_add O vmin (o_mul O (o_nat O i) z)) (seq 0 (n - 1)) ++ [vmax].

(** math_functions.c:143-156 clip_vector, one entry; exit(1) when minimum > maximum *)
Definition clip {F} (O : arith F) (x lo hi : F) : option F :=
  if o_lt O hi lo then None else Some (if o_lt O x lo then lo else if o_lt O hi x then hi else x).

(** dueling_categorical_dqn.c:1555-1561 (and 1641-1649, 1769-1777): entry i of tzj *)
Definition target {F} (O : arith F) (nonterminal : bool) (reward lambda vmin vmax : F) (support : list F) (i : nat) : option F :=
  t ← (if nonterminal then z ← rd support i; Some (o_add O reward (o_mul O lambda z)) else Some reward);
  clip O t vmin vmax.

(** dueling_categorical_dqn.c:1563-1580 (and 1651-1668, 1779-1796): atom i of the target is split between two atoms *)
Definition split_atom {F} (O : arith F) (n : nat) (nonterminal : bool) (vmin z : F) (p : list F) (i : nat) (tz : F) (m : list F) : option (list F) :=
  b ← o_div O (o_sub O tz vmin) z;
  l ← o_int O b;
  let l := if o_eq O b (o_nat O l) then if decide (0 < l)%nat then (l - 1)%nat else l else l in
  let u := (l + 1)%nat in
  if nonterminal then
    x ← rd p i; m ← add_at O m l (o_mul O x (o_sub O (o_nat O u) b));
    add_at O m u (o_mul O x (o_sub O b (o_nat O l)))
  else
    x ← o_div O (o_sub O (o_nat O u) b) (o_nat O n); m ← add_at O m l x;
    y ← o_div O (o_sub O b (o_nat O l)) (o_nat O n); add_at O m u y.

(** dueling_categorical_dqn.c:1552-1581 (and 1638-1669, 1766-1797): m, from calloc'ed zeros; p is the distribution of
    the chosen action (softmax_layer + action_index*n_atoms) *)
Definition projection {F} (O : arith F) (n : nat) (nonterminal : bool) (reward lambda vmin vmax z : F) (support p : list F) : option (list F) :=
  for_loop n 0 (fun i m => tz ← target O nonterminal reward lambda vmin vmax support i; split_atom O n nonterminal vmin z p i tz m)
    (replicate n (o_nat O 0)).

(** ** The loss *)

(** utils.c:1284-1296 argmax; -1 for an empty vector (None here: the caller uses it as an index) *)
Definition argmax (v : list R) (dimension : nat) : option nat :=
  if decide (dimension = 0)%nat then None else
  x0 ← rd v 0;
  '(_, index) ← for_loop dimension 0 (fun i st => let '(mx, index) := st in
     x ← rd v i; Some (if decide (mx < x) then (x, i) else (mx, index))) (x0, 0%nat);
  Some index.

(** dueling_categorical_dqn.c:1582-1590 (and 1670-1677): row action_t of the error array *)
Definition error_row (n action_t : nat) (m sm error : list R) : option (list R) :=
  for_loop n 0 (fun i error =>
    x ← rd m i; p ← rd sm (action_t * n + i)%nat;
    if decide (x = 0) then wr error (action_t * n + i)%nat 0
    else if decide (p = 0) then wr error (action_t * n + i)%nat (-99999)
    else wr error (action_t * n + i)%nat (- x / p)) error.

(** dueling_categorical_dqn.c:1798-1819 (the _opt_with_error variant): the weighted error row and new_error[0]; the
    test bool_is_real is always true of a real *)
Definition weighted_error_row (n action_t : nat) (weight : R) (m sm error : list R) : option (list R * R) :=
  '(error, e) ← for_loop n 0 (fun i st => let '(error, temp_err) := st in
     x ← rd m i; p ← rd sm (action_t * n + i)%nat;
     if decide (x = 0) then error ← wr error (action_t * n + i)%nat 0; Some (error, temp_err + 0)
     else if decide (p = 0) then error ← wr error (action_t * n + i)%nat (-99999); Some (error, temp_err + -99999)
     else error ← wr error (action_t * n + i)%nat (- weight * x / p); Some (error, temp_err + ln (x / p) * x * weight)) (error, 0);
  Some (error, if decide (e < 0) then - e else e).

(** the fields of dueling_categorical_dqn used by the loss *)
Record head := Head { h_mean : list R; h_add : list R; h_sm : list R; h_q : list R; h_error : list R }.
(** dueling_categorical_dqn.c:697-713 reset_dueling_categorical_dqn (and 731-747), those fields *)
Definition reset_head (n actions : nat) : head :=
  Head (replicate n 0) (replicate (actions * n) 0) (replicate (actions * n) 0) (replicate actions 0) (replicate (actions * n) 0).

(** compute_probability_distribution followed by compute_q_functions (1543-1546) *)
Definition evaluate (n actions : nat) (support A V : list R) (h : head) : option head :=
  '(mean, add, sm) ← distributions n actions A V (h_mean h, h_add h, h_sm h);
  q ← q_functions n actions sm support (h_q h);
  Some (Head mean add sm q (h_error h)).

(** dueling_categorical_dqn.c:1542-1595 get_loss_for_dueling_categorical_dqn ([copied] = true), and 1629-1682
    get_loss_for_dueling_categorical_dqn_opt ([copied] = false: line 1548, the copy of the online distribution over the
    target's, is absent there).  (A0,V0) are the streams of the online network at state_t, (A1,V1) at state_t_1, and
    (A2,V2) those of the target network at state_t_1.  Returns the error array. *)
Definition categorical_loss (copied : bool) (n actions : nat) (vmin vmax z : R) (support : list R) (A0 V0 A1 V1 A2 V2 : list R)
    (online tgt : head) (action_t : nat) (reward lambda : R) (nonterminal : bool) : option (list R) :=
  online ← evaluate n actions support A1 V1 online;
  tgt ← evaluate n actions support A2 V2 tgt;
  a ← argmax (h_q tgt) actions;
  tsm ← (if copied then for_loop n 0 (fun k sm => x ← rd (h_sm online) (a * n + k)%nat; wr sm (a * n + k)%nat x) (h_sm tgt)
         else Some (h_sm tgt));
  let online := reset_head n actions in
  '(_, _, sm) ← distributions n actions A0 V0 (h_mean online, h_add online, h_sm online);
  m ← projection reals n nonterminal reward lambda vmin vmax z support (drop (a * n)%nat tsm);
  error_row n action_t m sm (h_error online).
