(** Model of src/struct_conn_handler.c: the graph of connected structures and its cycle check.
    A handler is a node; pointers to handlers are indices into the list of all handlers.  Only the
    fields the check uses are modelled.  int depths are integers (no overflow).  [None] is exit(1), a
    NULL or out-of-bounds access, or the use of a field that was never written. *)
From Verif Require Import Base BaseLemmas.
Open Scope nat_scope.

(** include/llab.h struct struct_conn_handler: inputs, outputs, n_inputs, n_outputs, visited, depth.
    [n_out = None]: not initialised. *)
Record handler := mkH { h_inputs : list nat; h_outputs : list nat; n_in : nat; n_out : option nat; visited : bool; depth : Z }.

(** struct_conn_handler.c:3-43 struct_handler; [None] for a NULL array.  n_outputs is checked (9-12,
    18-21) but never stored. *)
Definition struct_handler (n_inputs n_outputs : nat) (inputs outputs : option (list nat)) : option handler :=
  if decide (n_inputs = 0) then
    match inputs with
    | Some _ => None
    | None =>
        if decide (n_outputs = 0) then match outputs with Some _ => None | None => Some (mkH [] [] 0 None false 0) end
        else match outputs with None => None | Some o => Some (mkH [] o 0 None false 0) end
    end
  else
    match inputs with
    | None => None
    | Some i =>
        if decide (n_outputs = 0) then match outputs with Some _ => None | None => Some (mkH i [] n_inputs None false 0) end
        else match outputs with None => None | Some o => Some (mkH i o n_inputs None false 0) end
    end.

(** a user who knows sets the missing field: s->n_outputs = n *)
Definition set_n_outputs (n : nat) (h : handler) : handler := mkH (h_inputs h) (h_outputs h) (n_in h) (Some n) (visited h) (depth h).

(** struct_conn_handler.c:52-53 *)
Definition mark (d : Z) (h : handler) : handler := mkH (h_inputs h) (h_outputs h) (n_in h) (n_out h) true d.

(** struct_conn_handler.c:54-63 (out = false: inputs, one level up) and 65-74 (out = true: outputs, one
    level down): iterations i, i+1, ... ([cnt] left); [rec] is the recursive call *)
Fixpoint scan (rec : list handler -> nat -> Z -> option (bool * list handler)) (out : bool) (arr : list nat) (d : Z)
    (cnt i : nat) (g : list handler) : option (bool * list handler) :=
  match cnt with
  | O => Some (true, g)
  | S c =>
      j ← rd arr i;
      h ← rd g j;
      if visited h then
        if (if out then (depth h <? d)%Z else (d <? depth h)%Z) then Some (false, g)
        else scan rec out arr d c (S i) g
      else
        r ← rec g j (if out then (d + 1)%Z else (d - 1)%Z);
        if fst (A := bool) (B := list handler) r then scan rec out arr d c (S i) (snd r) else Some r
  end.

(** struct_conn_handler.c:50-77 there_are_no_cycles(s, depth) *)
Fixpoint no_cycles (fuel : nat) (g : list handler) (s : nat) (d : Z) : option (bool * list handler) :=
  match fuel with
  | O => None
  | S f =>
      h ← rd g s;
      let g1 := <[s := mark d h]> g in
      r ← scan (no_cycles f) false (h_inputs h) d (n_in h) 0 g1;
      if fst (A := bool) (B := list handler) r then
        k ← n_out h;
        scan (no_cycles f) true (h_outputs h) d k 0 (snd r)
      else Some r
  end.
