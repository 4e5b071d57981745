(** Model of the softmax family of src/math_functions.c over exact reals (C: float). *)
From Verif Require Import NumLib.
Open Scope R_scope.

(** math_functions.c:158-172 softmax(input,output,size) *)
Definition softmax (input output : list R) (size : nat) : option (list R) :=
  sum ← sum_loop size (fun i => x ← rd input i; Some (exp x)) 0;
  for_loop size 0 (fun i out => x ← rd input i; wr out i (exp x / sum)) output.

(** math_functions.c:756-769 softmax_array_not_complete(input,output,mask,size); the int mask is tested
    against 0 *)
Definition softmax_array_not_complete (input output : list R) (mask : list Z) (size : nat) : option (list R) :=
  sum ← sum_loop size (fun i => m ← rd mask i; if decide (m = 0%Z) then Some 0 else x ← rd input i; Some (exp x)) 0;
  for_loop size 0 (fun i out => m ← rd mask i; if decide (m = 0%Z) then Some out else x ← rd input i; wr out i (exp x / sum)) output.

(** math_functions.c:225-240 derivative_softmax_array(input,output,softmax_arr,error,size); input is the
    int mask *)
Definition derivative_softmax_array (mask : list Z) (output softmax_arr error : list R) (size : nat) : option (list R) :=
  for_loop size 0 (fun j out =>
    mj ← rd mask j;
    if decide (mj = 0%Z) then Some out else
    for_loop size 0 (fun i out =>
      mi ← rd mask i;
      if decide (mi = 0%Z) then Some out else
      si ← rd softmax_arr i; sj ← rd softmax_arr j; e ← rd error i;
      if decide (i = j) then addat out j ((si * (1 - sj)) * e)
      else addat out j (- sj * si * e)) out) output.

(** math_functions.c:242-256 derivative_softmax(output,softmax_arr,error,size) *)
Definition derivative_softmax (output softmax_arr error : list R) (size : nat) : option (list R) :=
  for_loop size 0 (fun j out =>
    for_loop size 0 (fun i out =>
      si ← rd softmax_arr i; sj ← rd softmax_arr j; e ← rd error i;
      if decide (i = j) then addat out j ((si * (1 - sj)) * e)
      else addat out j (- (sj * si * e))) out) output.
