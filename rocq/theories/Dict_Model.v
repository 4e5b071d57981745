(** Model of src/dictionary.c: the set of int arrays kept as a son/brother tree. *)
From Verif Require Import Base.

(** mystruct (src/llab.h): NULL or a node with value c, son and brother *)
Inductive mystruct := Null | Node (c : Z) (son brother : mystruct).

(** dictionary.c:30-45 with *ms == NULL and the remaining elements array[index..size) *)
Fixpoint check_null (xs : list Z) : mystruct * bool :=
  match xs with
  | [] => (Null, true)
  | x :: rest =>
      match rest with
      | [] => (Node x Null Null, false)            (* index == size-1 *)
      | _ => let p := check_null rest in (Node x p.1 Null, p.2)
      end
  end.

(** dictionary.c:30-71 check_int_array on the remaining elements array[index..size); returns the
    updated tree and the C return value *)
Fixpoint check_int_array (ms : mystruct) (xs : list Z) : mystruct * bool :=
  match xs with
  | [] => (ms, true)                               (* index >= size *)
  | x :: rest =>
      match ms with
      | Null => check_null xs
      | Node c son brother =>
          if decide (c = x) then let p := check_int_array son rest in (Node c p.1 brother, p.2)
          else match brother with
               | Null =>
                   match rest with
                   | [] => (Node c son (Node x Null Null), false)
                   | _ => let p := check_null rest in (Node c son (Node x p.1 Null), p.2)
                   end
               | Node c2 son2 brother2 =>
                   if decide (c2 <> x) then
                     let p := check_int_array brother2 xs in (Node c son (Node c2 son2 p.1), p.2)
                   else let p := check_int_array son2 rest in (Node c son (Node c2 p.1 brother2), p.2)
               end
      end
  end.

(** A program's successive calls on the same dictionary, starting from NULL: the answers in order. *)
Fixpoint answers (ms : mystruct) (calls : list (list Z)) : list bool :=
  match calls with
  | [] => []
  | xs :: calls => let p := check_int_array ms xs in p.2 :: answers p.1 calls
  end.
