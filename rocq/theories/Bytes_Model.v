(** Model of the byte-order helpers (src/utils.c:1546-1584).  Memory regions are lists of bytes. *)
From Verif Require Import Base.
Open Scope nat_scope.

Section bytes.
  Context {B : Type}.

  (** utils.c:1557-1560, iteration i: array[i] <-> array[size-1-i], array starting at offset o *)
  Definition rev_step (o size i : nat) (m : list B) : option (list B) :=
    t ← rd m (o + i); u ← rd m (o + (size - 1 - i)); m ← wr m (o + i) u; wr m (o + (size - 1 - i)) t.

  (** utils.c:1552-1562 reverse_ptr on the [size] bytes at offset o *)
  Definition reverse_ptr (m : list B) (o size : nat) : option (list B) :=
    if size <=? 1 then Some m else for_loop (size / 2) 0 (rev_step o size) m.

  (** utils.c:1565-1573 swap_array_bytes_order(ptr,size,len).  [array] is the address of the
      parameter ptr itself ([&ptr]), so the loop works on the 8 bytes [ptr_bytes] of that local variable
      and not on the data it points to.  The result is the data region after the call. *)
  Definition swap_array_bytes_order (ptr_bytes data : list B) (size len : nat) : option (list B) :=
    if (size <=? 1) || (len =? 0) then Some data else
    _ ← for_loop len 0 (fun i a => reverse_ptr a (i * size) size) ptr_bytes;
    Some data.

  (** utils.c:1575-1584 convert_data, convert_communication_data *)
  Definition convert_data (little_endian : bool) (ptr_bytes data : list B) (size len : nat) : option (list B) :=
    if little_endian then Some data else swap_array_bytes_order ptr_bytes data size len.

  (** What the callers need (not in the code): the same loop on the data itself. *)
  Definition swap_array_intended (data : list B) (size len : nat) : option (list B) :=
    if (size <=? 1) || (len =? 0) then Some data else
    for_loop len 0 (fun i a => reverse_ptr a (i * size) size) data.
End bytes.
