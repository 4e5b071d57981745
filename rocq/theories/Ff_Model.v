(** Model of the evaluation of a NEAT genome: src/feedforward.c.

    The genomes are those of Neat_Model.v: a node pointer is an index of all_nodes, a connection pointer an index of the connections.  The fields
    that only this file uses (actual_value, stored_value and flag of the nodes, and the flag of the connections, which is an int here) are separate
    arrays.  modified_sigmoid (neat_utils.c:654-658) is an arbitrary function [sig].  Simplifications: the values of a new or copied genome are 0
    (init_genome and the mutations set them so, copy_genome copies them, and only feed_forward, on its own copy, changes them); the recursions get
    fuel, and [None] when it is used up; freeing the memory at the end is left out. *)
From Verif Require Export Base Neat_Model.
From Verif Require Import Mcts_Model.
Open Scope nat_scope.

Section ff.
Context {F : Type} (O : num F) (sig : F -> F).
Notation genome := (genome F).
Notation "a +' b" := (n_add O a b) (at level 50, left associativity). Notation "a *' b" := (n_mul O a b) (at level 40, left associativity).
Let zero : F := n_z O 0.

(** head->innovation_number-1 *)
Definition number (g : genome) (i : nat) : option nat := n ← rd (g_nodes g) i; minus_one (n_inn n).

(** feed_structure.h:28-32 [typedef struct ff]: list_nodes, list_connections and flag; size is the length of list_nodes.  A cell of malloc'ed memory that
    was not written is [None] *)
Record ffl := Ffl { f_nodes : list (option nat); f_conns : list (option nat); f_flag : Z }.
Definition f_size (l : ffl) : nat := length (f_nodes l).
Definition node_at (l : ffl) (i : nat) : option nat := x ← rd (f_nodes l) i; x.
Definition conn_at (l : ffl) (i : nat) : option nat := x ← rd (f_conns l) i; x.

(** feedforward.c:289-303 (and 306-319, 329-342): a list that ends at head *)
Definition leaf (len head : nat) (flag : Z) : ffl := Ffl (replicate (len - 1) None ++ [Some head]) (replicate (len - 1) None) flag.
(** feedforward.c:350-353: the lists j..k-1 pass through head and the connection c *)
Definition fill (len head c j k : nat) (ls : list ffl) : option (list ffl) :=
  for_loop (k - j) j (fun x ls => l ← rd ls x; ns ← wr (f_nodes l) (len - 1) (Some head); cs ← wr (f_conns l) (len - 1) (Some c); wr ls x (Ffl ns cs (f_flag l))) ls.
(** feedforward.c:285-365 ff_reconstruction: the state is array, the lists and global_j; the last component is the returned number *)
Definition rst : Type := list bool * list ffl * nat * nat.
Fixpoint recon (fuel : nat) (g : genome) (array : list bool) (head len : nat) (lists : list ffl) (gj : nat) : option rst :=
  match fuel with 0 => None | S fuel =>
    p ← number g head;
    if decide (p < g_input g) then Some (array, lists ++ [leaf len head 0], gj, S (length lists)) else
    b ← rd array p;
    if (b : bool) then Some (array, lists ++ [leaf len head 1], gj, S (length lists)) else
    n ← rd (g_nodes g) head;
    on ← mapM (fun k => c ← rd (g_conns g) k; Some (c_flag c)) (n_in n);
    if forallb negb on then Some (array, lists ++ [leaf len head (-1)], gj, S (length lists)) else
    array ← wr array p true;
    st ← each (fun (st : rst) c => let '(array, lists, gj, j) := st in
           y ← rd (g_conns g) c;
           if c_flag y then
             r ← recon fuel g array (c_src y) (S len) lists gj; let '(array, lists, gj, k) := r in
             if decide (k = 0) then Some (array, lists, gj, j) else lists ← fill len head c j k lists; Some (array, lists, k, k)
           else Some st) (n_in n) (array, lists, gj, gj);
    let '(array, lists, gj, j) := st in
    array ← wr array p false; Some (array, lists, gj, j)
  end.

(** actual_value, stored_value, flag of the nodes; flag of the connections *)
Record ev := Ev { e_val : list F; e_sto : list F; e_nf : list bool; e_cf : list Z }.
Definition put_val (i : nat) (x : F) (s : ev) : option ev := l ← wr (e_val s) i x; Some (Ev l (e_sto s) (e_nf s) (e_cf s)).
Definition add_val (i : nat) (x : F) (s : ev) : option ev := y ← rd (e_val s) i; put_val i (y +' x) s.
Definition put_sto (i : nat) (x : F) (s : ev) : option ev := l ← wr (e_sto s) i x; Some (Ev (e_val s) l (e_nf s) (e_cf s)).
Definition put_nf (i : nat) (b : bool) (s : ev) : option ev := l ← wr (e_nf s) i b; Some (Ev (e_val s) (e_sto s) l (e_cf s)).
Definition put_cf (k : nat) (z : Z) (s : ev) : option ev := l ← wr (e_cf s) k z; Some (Ev (e_val s) (e_sto s) (e_nf s) l).

(** feedforward.c:368-436 recursive_computation.  [via] is c together with the node whose actual_value the last argument points to (the out node of
    c at 397-399; with c == NULL that pointer is not used).  The read at 411 through out_connections[i], with i the number of incoming connections,
    is not reached: inputs return at 381-385 *)
Fixpoint compute (fuel : nat) (g : genome) (array : list bool) (head : nat) (via : option (nat * nat)) (s : ev) : option (ev * bool) :=
  match fuel with 0 => None | S fuel =>
    p ← number g head;
    let input := bool_decide (p < g_input g) in
    s ← put_nf head (input || match via with None => true | Some _ => false end) s;
    stop ← match via with
      | Some (c, target) =>
        if input then y ← rd (g_conns g) c; x ← rd (e_val s) head; s ← put_cf c (-2) s; s ← add_val target (x *' c_weight y) s; Some (Some (s, true))
        else b ← rd array p; if (b : bool) then Some (Some (s, false)) else Some None
      | None => Some None end;
    match (stop : option (ev * bool)) with Some r => Some r | None =>
    n ← rd (g_nodes g) head;
    s ← each (fun s k => f ← rd (e_cf s) k;
          if (f =? -1)%Z then
            y ← rd (g_conns g) k; b ← rd (e_nf s) head; r ← compute fuel g array (c_src y) (Some (k, head)) s;
            if (b : bool) then Some (fst r) else put_nf head (snd r) (fst r)
          else Some s) (n_in n) s;
    s ← match via with
      | Some (c, target) =>
        b ← rd (e_nf s) head;
        if (b : bool) then
          y ← rd (g_conns g) c; s ← put_cf c (-2) s; s ← put_nf (c_dst y) true s;
          if input then None else x ← rd (e_val s) head; add_val target (sig x *' c_weight y) s
        else Some s
      | None => Some s end;
    s ← each (fun s k => f ← rd (e_cf s) k;
          if (f =? -1)%Z then
            s ← put_cf k (-2) s; b ← rd (e_nf s) head;
            if (b : bool) then
              y ← rd (g_conns g) k; x ← rd (e_val s) head;
              s ← add_val (c_dst y) ((if input then x else sig x) *' c_weight y) s;
              r ← compute fuel g array (c_dst y) None s; Some (fst r)
            else Some s
          else Some s) (n_out n) s;
    b ← rd (e_nf s) head; Some (s, b)
    end
  end.

(** a loop over all the lists of all the outputs, with their numbers *)
Definition all_lists {S} (f : S -> ffl -> option S) (ls : list (list ffl)) (s : S) : option S := each (fun s l => each f l s) ls s.
(** feedforward.c:64-69: the lists of each output *)
Definition reconstruct (fuel : nat) (g : genome) (nodes : nat) : option (list (list ffl)) :=
  r ← for_loop (g_output g) 0 (fun i st => r ← recon fuel g (fst st) (i + g_input g) 1 [] 0; let '(a, l, _, _) := r in Some (a, snd st ++ [l])) (replicate nodes false, []);
  Some (snd r).
(** feedforward.c:76-88: array becomes flag+1, or 1 when flag is 1, so it is not zero unless flag is -1: the ends of the lists *)
Definition mark_ends (g : genome) (st : list bool * ev * bool) (l : ffl) : option (list bool * ev * bool) :=
  let '(array, s, storing) := st in
  e ← node_at l (f_size l - 1); p ← number g e; array ← wr array p (negb (f_flag l =? -1)%Z);
  if (f_flag l =? 1)%Z then Some (array, s, true) else if (f_flag l =? -1)%Z then s ← put_nf e true s; Some (array, s, storing) else Some (array, s, storing).
(** feedforward.c:95-97 (and 201-203, 217-219): the first m connections of a list get the flag -1 *)
Definition activate (m : nat) (s : ev) (l : ffl) : option ev := for_loop m 0 (fun i s => c ← conn_at l i; put_cf c (-1) s) s.
(** feedforward.c:107-137: does the last step of the list l (from its last node but one to its last node) occur inside another list?  [i j] is the place of l *)
Definition occurs_in (g : genome) (a b : nat) (l : ffl) : option bool :=
  for_loop (f_size l - 1) 0 (fun k f => x ← node_at l k; y ← node_at l (k + 1); px ← number g x; py ← number g y;
    Some (f || (bool_decide (px = a) && bool_decide (py = b) && bool_decide (k + 1 <> f_size l - 1)))) false.
Definition occurs (g : genome) (lists : list (list ffl)) (i j a b : nat) : option bool :=
  for_loop (length lists) 0 (fun k1 f => row ← rd lists k1; for_loop (length row) 0 (fun k2 f => l ← rd row k2;
    if decide (k1 = i /\ k2 = j) then Some f else o ← occurs_in g a b l; Some (f || o)) f) false.
Definition cut_loops (g : genome) (lists : list (list ffl)) (s : ev) : option ev :=
  for_loop (length lists) 0 (fun i s => row ← rd lists i; for_loop (length row) 0 (fun j s => l ← rd row j;
    if (f_flag l =? 1)%Z then
      x ← node_at l (f_size l - 2); y ← node_at l (f_size l - 1); a ← number g x; b ← number g y;
      o ← occurs g lists i j a b; if (o : bool) then Some s else c ← conn_at l (f_size l - 2); put_cf c (-2) s
    else Some s) s) s.
(** feedforward.c:141-143, 226-228: the inputs *)
Definition set_inputs (g : genome) (inputs : list F) (s : ev) : option ev := for_loop (g_input g) 0 (fun i s => x ← rd inputs i; put_val i x s) s.
(** feedforward.c:144-147, 238-241: the inputs that are used *)
Definition run_inputs (fuel : nat) (g : genome) (array : list bool) (s : ev) : option ev :=
  for_loop (g_input g) 0 (fun i s => p ← number g i; b ← rd array p; if (b : bool) then r ← compute fuel g array i None s; Some (fst r) else Some s) s.
(** feedforward.c:148-154, 243-249: the nodes without incoming connections *)
Definition run_ends (fuel : nat) (g : genome) (array : list bool) (lists : list (list ffl)) (s : ev) : option ev :=
  all_lists (fun s l => if (f_flag l =? -1)%Z then e ← node_at l (f_size l - 1); r ← compute fuel g array e None s; Some (fst r) else Some s) lists s.
(** feedforward.c:156-251: the second pass, for genomes with loops *)
Definition second_pass (fuel : nat) (g : genome) (nodes : nat) (inputs : list F) (array : list bool) (lists : list (list ffl)) (s : ev) : option ev :=
  array2 ← all_lists (fun a l => if (f_flag l =? 1)%Z then x ← node_at l (f_size l - 2); p ← number g x; wr a p true else Some a) lists (replicate nodes false);
  s ← for_loop (length (g_nodes g)) 0 (fun i s => s ← put_nf i false s; p ← number g i; b ← rd array p;
        s ← (if (b : bool) then if decide (g_input g <= i) then x ← rd (e_val s) i; put_sto i x s else Some s else Some s); put_val i zero s) s;
  r ← all_lists (fun (st : ev * list (list bool)) l => let '(s, array3) := st in
        if (f_flag l =? 1)%Z then
          x ← node_at l (f_size l - 2); y ← node_at l (f_size l - 1); p ← number g x; q ← number g y; row ← rd array3 p; b ← rd row q;
          if (b : bool) then Some st else
            v ← rd (e_sto s) y; c ← conn_at l (f_size l - 2); z ← rd (g_conns g) c; s ← put_val x (sig v *' c_weight z) s; s ← put_nf x true s;
            row ← wr row q true; array3 ← wr array3 p row; Some (s, array3)
        else Some st) lists (s, replicate nodes (replicate nodes false));
  s ← all_lists (fun s l =>
        if (f_flag l =? 1)%Z then activate (f_size l - 2) s l
        else e ← node_at l (f_size l - 1); s ← put_nf e true s;
          hit ← for_loop (f_size l) 0 (fun k f => x ← node_at l k; p ← number g x; b ← rd array2 p; Some (f || b)) false;
          if (hit : bool) then Some s else activate (f_size l - 1) s l) lists (fst r);
  s ← set_inputs g inputs s;
  s ← all_lists (fun s l => if (f_flag l =? 1)%Z then x ← node_at l (f_size l - 2); r ← compute fuel g array x None s; Some (fst r) else Some s) lists s;
  s ← run_inputs fuel g array s;
  run_ends fuel g array lists s.
(** feedforward.c:50-281 feed_forward *)
Definition feed_forward (fuel : nat) (g1 : genome) (inputs : list F) (nodes : nat) : option (list F) :=
  g ← copy_genome g1;
  lists ← reconstruct fuel g nodes;
  let s := Ev (replicate (length (g_nodes g)) zero) (replicate (length (g_nodes g)) zero) (replicate (length (g_nodes g)) false)
             ((fun c : conn F => if c_flag c then 1%Z else 0%Z) <$> g_conns g) in
  st ← all_lists (mark_ends g) lists (replicate nodes false, s, false); let '(array, s, storing) := st in
  s ← all_lists (fun s l => activate (f_size l - 1) s l) lists s;
  s ← cut_loops g lists s;
  s ← set_inputs g inputs s;
  s ← run_inputs fuel g array s;
  s ← run_ends fuel g array lists s;
  s ← (if (storing : bool) then second_pass fuel g nodes inputs array lists s else Some s);
  mapM (fun i => x ← rd (e_val s) (i + g_input g); Some (sig (x +' n_z O 1))) (seq 0 (g_output g)).
End ff.
