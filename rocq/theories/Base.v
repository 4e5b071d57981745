(** Shared vocabulary of the model: C arrays with checked accesses, and C [for] loops.

    A C array is a list.  A read or write outside the array is undefined behaviour in C; here
    it is [None].  A theorem concluding [... = Some r] therefore also states that the modelled
    code never leaves its arrays (and, for fuelled functions, that it terminates). *)
From Coq Require Export ZArith Lia.
From stdpp Require Export prelude list option.

(** [a[i]] as an rvalue. *)
Definition rd {A} (l : list A) (i : nat) : option A := l !! i.

(** [a[i] = v]. *)
Definition wr {A} (l : list A) (i : nat) (v : A) : option (list A) :=
  if decide (i < length l) then Some (<[i := v]> l) else None.

(** [for(i = i0; i < i0+cnt; i++) s = body(i,s)], aborting on undefined behaviour. *)
Fixpoint for_loop {S : Type} (cnt i0 : nat) (body : nat -> S -> option S) (s : S) : option S :=
  match cnt with
  | O => Some s
  | Datatypes.S c => s' ← body i0 s; for_loop c (Datatypes.S i0) body s'
  end.
