(** Model of itoa_n (src/utils.c:146-165).  The buffer is a list of character codes, the pointer p an
    index into it.  int is 32 bits: negating INT_MIN overflows (undefined, [None]).  The two do-while
    loops are fuelled; 10 iterations are enough for every int (proved). *)
From Verif Require Import Base.
Open Scope Z_scope.

(** utils.c:153-157: do { ++p; shifter = shifter/10; } while(shifter); *)
Fixpoint count_digits (fuel : nat) (shifter : Z) (p : nat) : option nat :=
  match fuel with
  | O => None
  | S fuel => let p := (p + 1)%nat in let shifter := Z.quot shifter 10 in
      if decide (shifter = 0) then Some p else count_digits fuel shifter p
  end.

(** utils.c:159-162: do { *--p = digit[i%10]; i = i/10; } while(i); digit[d] is the code 48+d, d in 0..9 *)
Fixpoint write_digits (fuel : nat) (b : list Z) (i : Z) (p : nat) : option (list Z) :=
  match fuel with
  | O => None
  | S fuel =>
      if decide (p = 0%nat) then None else
      let p := (p - 1)%nat in let d := Z.rem i 10 in
      if decide (0 <= d <= 10) then
        b ← wr b p (if decide (d = 10) then 0 else 48 + d);   (* digit[10] is the terminator of the literal *)
        let i := Z.quot i 10 in
        if decide (i = 0) then Some b else write_digits fuel b i p
      else None
  end.

(** utils.c:146-165 *)
Definition itoa_n (i : Z) (b : list Z) : option (list Z) :=
  p1 ← (if decide (i < 0) then b1 ← wr b 0%nat 45; (if decide (i = - 2^31) then None else Some (b1, 1%nat, i * -1))
        else Some (b, 0%nat, i));
  let '(b, p, i) := p1 in
  p ← count_digits 11 i p;
  b ← wr b p 0;
  write_digits 11 b i p.
