(** Model of the structural mutations and the crossover of NEAT genomes: src/mutations.c and the
    parts of src/neat_utils.c they use.

    A genome owns an array of nodes and, through them, a set of heap-allocated connections; a
    connection is shared by the list of outgoing connections of its source and the list of incoming
    connections of its destination.  The model keeps that sharing: a node pointer is the index of
    the node in [all_nodes] ([adjust_genome], which reorders that array, renames the pointers), a connection pointer is an index
    into the list [g_conns] of the connections allocated for the genome.  Left out: the
    activation values stored in the nodes, fitness and species fields, overflow of the int counters.

    The weights are an arbitrary type [W] with the constant 1; the random numbers are arguments. *)
From Verif Require Import Base Shuffle_Model Sort_Model.
Open Scope nat_scope.

Section neat.
  Context {W : Type} (one : W).

  (** genome.h: [typedef struct connection].  [c_src] is in_node, [c_dst] is out_node. *)
  Record conn := mkConn {
    c_inn : nat; c_src : nat; c_dst : nat; c_flag : bool; c_weight : W }.

  (** genome.h: [typedef struct node].  [n_bias] is [None] while bias_flag is uninitialised memory. *)
  Record nd := mkNode {
    n_inn : nat; n_in : list nat; n_out : list nat; n_bias : option bool }.

  (** genome.h: [typedef struct genome]. *)
  Record genome := mkGenome {
    g_nodes : list nd; g_conns : list conn; g_input : nat; g_output : nat }.

  (** The five variables shared by a population (neat.h): global_inn_numb_nodes,
      global_inn_numb_connections, dict_connections, matrix_nodes, matrix_connections.
      A row (-1,-1) of matrix_nodes is [None]. *)
  Record globals := mkGlobals {
    gl_nodes : nat; gl_conns : nat; gl_dict : list nat;
    gl_mnodes : list (option (nat * nat)); gl_mconns : list (nat * nat) }.

  (** neat_utils.c:816-830 init_global_params *)
  Definition init_globals (input output : nat) : globals :=
    mkGlobals (input + output) 0 [] (replicate (input + output) None) [].

  (** neat_utils.c:660-683 init_genome.  bias_flag is not written. *)
  Definition init_genome (input output : nat) : genome :=
    mkGenome ((fun i => mkNode (i + 1) [] [] None) <$> seq 0 (input + output)) [] input output.

  (** [x-1] used as an index of a C array *)
  Definition minus_one (x : nat) : option nat :=
    match x with 0 => None | S y => Some y end.

  (** neat_utils.c:838-849 and 865-876: one step of the collection of the distinct connections;
      [seen] is the array temp, [acc] the array temp_connection of size [nc]. *)
  Definition collect (g : genome) (nc : nat) (s : list bool * list nat) (k : nat)
    : option (list bool * list nat) :=
    c ← rd (g_conns g) k;
    p ← minus_one (c_inn c);
    b ← rd (fst s) p;
    if (b : bool) then Some s
    else seen ← wr (fst s) p true;
         if decide (length (snd s) < nc) then Some (seen, snd s ++ [k]) else None.

  (** a loop over the elements of an array *)
  Fixpoint each {A S} (f : S -> A -> option S) (l : list A) (s : S) : option S :=
    match l with [] => Some s | x :: l => s' ← f s x; each f l s' end.

  (** neat_utils.c:832-857 get_connections together with 859-881 get_numb_connections (the length
      of the list): outgoing connections of a node first, then its incoming ones. *)
  Definition get_connections (g : genome) (nc : nat) : option (list nat) :=
    s ← each (fun s n => s1 ← each (collect g nc) (n_out n) s; each (collect g nc) (n_in n) s1)
          (g_nodes g) (replicate nc false, []);
    Some (snd s).

  (** assignment to one connection: [c->flag = f], [c->weight = w] *)
  Definition upd_conn (g : genome) (k : nat) (f : conn -> conn) : option genome :=
    c ← rd (g_conns g) k; cs ← wr (g_conns g) k (f c);
    Some (mkGenome (g_nodes g) cs (g_input g) (g_output g)).
  Definition set_flag (b : bool) (c : conn) : conn :=
    mkConn (c_inn c) (c_src c) (c_dst c) b (c_weight c).
  Definition set_weight (f : W -> W) (c : conn) : conn :=
    mkConn (c_inn c) (c_src c) (c_dst c) (c_flag c) (f (c_weight c)).

  (** The code repeated at mutations.c:184-227 and 389-415: allocate a connection from node i to
      node j, append it to the outgoing connections of i and to the incoming connections of j. *)
  Definition attach (g : genome) (inn i j : nat) (b : bool) (w : W) : option genome :=
    let k := length (g_conns g) in
    ni ← rd (g_nodes g) i;
    ns ← wr (g_nodes g) i (mkNode (n_inn ni) (n_in ni) (n_out ni ++ [k]) (n_bias ni));
    nj ← rd ns j;
    ns' ← wr ns j (mkNode (n_inn nj) (n_in nj ++ [k]) (n_out nj) (n_bias nj));
    Some (mkGenome ns' (g_conns g ++ [mkConn inn i j b w]) (g_input g) (g_output g)).

  (** mutations.c:229-246 and the allocation at 202-210: a new node at the end of all_nodes *)
  Definition add_node (g : genome) (inn : nat) : genome :=
    mkGenome (g_nodes g ++ [mkNode inn [] [] None]) (g_conns g) (g_input g) (g_output g).

  (** mutations.c:129-134, 343-352: first index of all_nodes with a given innovation number;
      [length] when there is none (the C variable k after the loop) *)
  Fixpoint index_of (inn : nat) (l : list nd) : nat :=
    match l with [] => 0 | n :: l => if decide (n_inn n = inn) then 0 else S (index_of inn l) end.

  (** mutations.c:39-53 connections_mutation.  [f i] is what happens to the weight of the i-th
      connection: nothing, a fresh random number, or the addition of a normal deviate. *)
  Definition connections_mutation (g : genome) (nc : nat) (f : nat -> W -> W) : option genome :=
    c ← get_connections g nc;
    for_loop (length c) 0 (fun i g => k ← rd c i; upd_conn g k (set_weight (f i))) g.

  (** mutations.c:82-119: can this connection be split?  Not when it is disabled (89), nor when the
      node made by its split is already in this genome (94-102). *)
  Definition splittable (G : globals) (g : genome) (k : nat) : option bool :=
    c ← rd (g_conns g) k;
    if c_flag c then
      p ← minus_one (c_inn c); s ← rd (gl_dict G) p;
      if decide (s = 0) then Some true
      else Some (bool_decide (Forall (fun n => n_inn n <> s) (g_nodes g)))
    else Some false.

  (** mutations.c:82-114: first splittable connection of a node *)
  Fixpoint find_conn (G : globals) (g : genome) (ks : list nat) : option (option nat) :=
    match ks with
    | [] => Some None
    | k :: ks => b ← splittable G g k; if (b : bool) then Some (Some k) else find_conn G g ks
    end.

  (** mutations.c:73-120: first node, in the shuffled order, with such a connection.  The flags
      flag1, flag2 and flag3 say, when the loops end, whether one was found. *)
  Fixpoint find_split (G : globals) (g : genome) (is_ : list nat) : option (option (nat * nat)) :=
    match is_ with
    | [] => Some None
    | i :: is_ =>
        n ← rd (g_nodes g) i; r ← find_conn G g (n_out n);
        match r with Some k => Some (Some (i, k)) | None => find_split G g is_ end
    end.

  (** mutations.c:136-180, the part marked "global": numbers for a node and two connections *)
  Definition split_globals (G : globals) (p a b : nat) : option globals :=
    d ← wr (gl_dict G) p (gl_nodes G + 1);
    let nn := gl_nodes G + 1 in
    let nc := gl_conns G + 2 in
    Some (mkGlobals nn nc (d ++ [0; 0]) (gl_mnodes G ++ [Some (nc - 1, nc)])
            (gl_mconns G ++ [(a, nn); (nn, b)])).

  (** mutations.c:55-249 split_random_connection.  Result: return value, globals, genome. *)
  Definition split_random_connection (rmax : Z) (rand : nat -> Z) (G : globals) (g : genome)
    : option (bool * globals * genome) :=
    let tot := length (g_nodes g) in
    temp ← shuffle_matrix rmax rand (seq 0 tot) tot;
    if decide (tot = 0) then None else
    r ← find_split G g temp;
    match r with
    | None => Some (false, G, g)
    | Some (i0, k) =>
        ni0 ← rd (g_nodes g) i0;
        let i := index_of (n_inn ni0) (g_nodes g) in
        ni ← rd (g_nodes g) i;
        c ← rd (g_conns g) k;
        dst ← rd (g_nodes g) (c_dst c);
        p ← minus_one (c_inn c);
        s0 ← rd (gl_dict G) p;
        G' ← (if decide (s0 = 0) then split_globals G p (n_inn ni) (n_inn dst) else Some G);
        s ← rd (gl_dict G') p;
        q ← minus_one s;
        row ← rd (gl_mnodes G') q;
        match row with
        | None => None
        | Some (e1, e2) =>
            g1 ← upd_conn g k (set_flag false);
            let g2 := add_node g1 s in
            g3 ← attach g2 e1 i tot true one;
            g4 ← attach g3 e2 tot (c_dst c) true (c_weight c);
            Some (true, G', g4)
        end
    end.

  (** mutations.c:261-277: the candidate sources (inputs and hidden nodes) and destinations
      (outputs and hidden nodes), in arrays of total - output and total - input entries *)
  Definition candidates (g : genome) : option (list nat * list nat) :=
    let tot := length (g_nodes g) in
    each (fun '(t1, t2) i =>
      n ← rd (g_nodes g) i;
      let s1 := if decide (length t1 < tot - g_output g) then Some (t1 ++ [i]) else None in
      let s2 := if decide (length t2 < tot - g_input g) then Some (t2 ++ [i]) else None in
      if decide (n_inn n <= g_input g) then t1' ← s1; Some (t1', t2)
      else if decide (n_inn n <= g_input g + g_output g) then t2' ← s2; Some (t1, t2')
      else t1' ← s1; t2' ← s2; Some (t1', t2'))
      (seq 0 tot) ([], []).

  (** mutations.c:292-309: first connection of the genome from node i to node j (compared by
      innovation number) *)
  Fixpoint between (g : genome) (a b : nat) (ks : list nat) : option (option nat) :=
    match ks with
    | [] => Some None
    | k :: ks =>
        c ← rd (g_conns g) k;
        x ← rd (g_nodes g) (c_src c); y ← rd (g_nodes g) (c_dst c);
        if decide (n_inn x = a /\ n_inn y = b) then Some (Some k) else between g a b ks
    end.

  (** What the search of mutations.c:288-315 ends with *)
  Inductive found := Disabled (k : nat) | Free (i j : nat) | Full.

  Fixpoint try_destinations (g : genome) (ks : list nat) (i : nat) (js : list nat)
    : option found :=
    match js with
    | [] => Some Full
    | j :: js =>
        ni ← rd (g_nodes g) i; nj ← rd (g_nodes g) j;
        r ← between g (n_inn ni) (n_inn nj) ks;
        match r with
        | None => Some (Free i j)
        | Some k =>
            c ← rd (g_conns g) k;
            if c_flag c then try_destinations g ks i js else Some (Disabled k)
        end
    end.

  Fixpoint try_sources (g : genome) (ks is_ js : list nat) : option found :=
    match is_ with
    | [] => Some Full
    | i :: is_ =>
        r ← try_destinations g ks i js;
        match r with Full => try_sources g ks is_ js | r => Some r end
    end.

  (** mutations.c:362-367: position of a pair in matrix_connections *)
  Fixpoint position_of (a b : nat) (l : list (nat * nat)) : option nat :=
    match l with
    | [] => None
    | x :: l => if decide (x = (a, b)) then Some 0 else S <$> position_of a b l
    end.

  (** mutations.c:251-418 add_random_connection.  With no candidate the flag stays 0 and
      temp_node[0] is read from an empty array (345, 350). *)
  Definition add_random_connection (rmax : Z) (rand1 rand2 : nat -> Z) (w : W)
      (G : globals) (g : genome) : option (bool * globals * genome) :=
    t ← candidates g;
    t1 ← shuffle_matrix rmax rand1 (fst t) (length (fst t));
    t2 ← shuffle_matrix rmax rand2 (snd t) (length (snd t));
    ks ← get_connections g (gl_conns G);
    if decide (length t1 = 0 \/ length t2 = 0) then None else
    r ← try_sources g ks t1 t2;
    match r with
    | Disabled k => g' ← upd_conn g k (set_flag true); Some (true, G, g')
    | Full => Some (false, G, g)
    | Free i0 j0 =>
        ni0 ← rd (g_nodes g) i0; nj0 ← rd (g_nodes g) j0;
        let i := index_of (n_inn ni0) (g_nodes g) in
        let j := index_of (n_inn nj0) (g_nodes g) in
        ni ← rd (g_nodes g) i; nj ← rd (g_nodes g) j;
        match position_of (n_inn ni) (n_inn nj) (take (gl_conns G) (gl_mconns G)) with
        | Some z => g' ← attach g (z + 1) i j true w; Some (true, G, g')
        | None =>
            let G' := mkGlobals (gl_nodes G) (gl_conns G + 1) (gl_dict G ++ [0]) (gl_mnodes G)
                        (gl_mconns G ++ [(n_inn ni, n_inn nj)]) in
            g' ← attach g (gl_conns G' - 1 + 1) i j true w; Some (true, G', g')
        end
    end.

  (** mutations.c:431-437 and 459-465: the first connection whose flag is [b] gets the other flag *)
  Fixpoint flip_first (b : bool) (g : genome) (ks : list nat) : option (bool * genome) :=
    match ks with
    | [] => Some (false, g)
    | k :: ks =>
        c ← rd (g_conns g) k;
        if decide (c_flag c = b) then g' ← upd_conn g k (set_flag (negb b)); Some (true, g')
        else flip_first b g ks
    end.

  (** mutations.c:420-446 remove_random_connection ([b = true]) and 448-474
      activate_random_connection ([b = false]) *)
  Definition flip_random_connection (b : bool) (rmax : Z) (rand : nat -> Z) (g : genome) (nc : nat)
    : option (bool * genome) :=
    c ← get_connections g nc;
    if decide (length c = 0) then Some (false, g) else
    c' ← shuffle_matrix rmax rand c (length c);
    flip_first b g c'.

  (** mutations.c:476-503 activate_connections; [coin i] is the outcome of [r2() < thereshold] at the
      i-th connection *)
  Definition activate_connections (rmax : Z) (rand : nat -> Z) (coin : nat -> bool)
      (g : genome) (nc : nat) : option (bool * genome) :=
    c ← get_connections g nc;
    if decide (length c = 0) then Some (false, g) else
    c' ← shuffle_matrix rmax rand c (length c);
    for_loop (length c') 0 (fun i '(flag, g) =>
      k ← rd c' i; x ← rd (g_conns g) k;
      if c_flag x then Some (flag, g)
      else if coin i then g' ← upd_conn g k (set_flag true); Some (true, g')
      else Some (flag, g)) (false, g).

  (** neat_utils.c:779-788: the incoming connections are copied; the pointers to their source are
      set later, so [None] here.  State: the new connections, the new lists of incoming pointers. *)
  Definition copy_in (g : genome) (s : list (option nat * conn) * list (list nat)) (n : nd)
    : option (list (option nat * conn) * list (list nat)) :=
    each (fun '(h, ins) k =>
      c ← rd (g_conns g) k;
      let i := length ins - 1 in
      l ← rd ins i; ins' ← wr ins i (l ++ [length h]);
      Some (h ++ [(None, mkConn (c_inn c) 0 i (c_flag c) (c_weight c))], ins'))
      (n_in n) (fst s, snd s ++ [[]]).

  (** neat_utils.c:795-797: the first incoming connection with the given number *)
  Fixpoint find_in (h : list (option nat * conn)) (inn : nat) (zs : list nat) : option nat :=
    match zs with
    | [] => None
    | z :: zs => c ← rd h z; if decide (c_inn (snd c) = inn) then Some z else find_in h inn zs
    end.

  (** neat_utils.c:790-806: the outgoing pointers of node i.  A pointer that is not found stays
      uninitialised, which the model does not allow ([None]). *)
  Definition copy_out (g : genome) (ins : list (list nat))
      (s : list (option nat * conn) * list (list nat)) (n : nd)
    : option (list (option nat * conn) * list (list nat)) :=
    let i := length (snd s) in
    r ← each (fun '(h, l) k =>
          c ← rd (g_conns g) k;
          d ← rd (g_nodes g) (c_dst c);
          zs ← rd ins (index_of (n_inn d) (g_nodes g));
          z ← find_in h (c_inn c) zs;
          x ← rd h z;
          h' ← wr h z (Some i, snd x);
          Some (h', l ++ [z])) (n_out n) (fst s, []);
    Some (fst r, snd s ++ [snd r]).

  (** neat_utils.c:755-810 copy_genome *)
  Definition copy_genome (g : genome) : option genome :=
    s ← each (copy_in g) (g_nodes g) ([], []);
    r ← each (copy_out g (snd s)) (g_nodes g) (fst s, []);
    cs ← mapM (fun x : option nat * conn => src ← fst x;
                 Some (mkConn (c_inn (snd x)) src (c_dst (snd x)) (c_flag (snd x))
                              (c_weight (snd x)))) (fst r);
    Some (mkGenome (zip_with (fun n io => mkNode (n_inn n) (fst io) (snd io) None)
                      (g_nodes g) (zip (snd s) (snd r)))
                   cs (g_input g) (g_output g)).

  (** mutations.c:524-569: the nodes of the second parent that the first does not have.  They are
      kept in a separate array temp_node that is appended to all_nodes at the end (720-732); the
      model appends at once and searches the two parts separately. *)
  Definition cross_nodes (g1 g2 : genome) : list nd :=
    (fun n => mkNode (n_inn n) [] [] None) <$>
      filter (fun n => Forall (fun m => n_inn m <> n_inn n) (g_nodes g1)) (g_nodes g2).

  (** mutations.c:607-660 and 662-714: the node of the child with the given number, searched in
      temp_node if the first parent ([n1] nodes) lacks it, in all_nodes otherwise *)
  Definition locate (n1 : nat) (ns : list nd) (inn : nat) : option nat :=
    let i := index_of inn (take n1 ns) in
    let j := if decide (i < n1) then i else n1 + index_of inn (drop n1 ns) in
    if decide (j < length ns) then Some j else None.

  (** mutations.c:572-578: is the number among those of the connections [c1] of the copy? *)
  Definition shared (g1 : genome) (c1 : list nat) (inn : nat) : option bool :=
    old ← mapM (rd (g_conns g1)) c1;
    Some (bool_decide (Exists (fun d : conn => c_inn d = inn) old)).

  (** mutations.c:571-718: the connections of the second parent that the copy of the first lacks
      are added, with their weight and flag *)
  Definition cross_conn (g1 g2 : genome) (c1 : list nat) (h : genome) (k2 : nat) : option genome :=
    c ← rd (g_conns g2) k2;
    b ← shared g1 c1 (c_inn c);
    if (b : bool) then Some h
    else a ← rd (g_nodes g2) (c_src c); b ← rd (g_nodes g2) (c_dst c);
         i ← locate (length (g_nodes g1)) (g_nodes h) (n_inn a);
         j ← locate (length (g_nodes g1)) (g_nodes h) (n_inn b);
         attach h (c_inn c) i j (c_flag c) (c_weight c).

  (** mutations.c:737-750: the i-th connection [k1] of the copy meets the connections [l] of the
      second parent from the j-th on *)
  Fixpoint inherit (coin : nat -> bool) (g2 : genome) (k1 j : nat) (l : list nat) (h : genome)
    : option genome :=
    match l with
    | [] => Some h
    | k2 :: l =>
        d ← rd (g_conns g2) k2; c ← rd (g_conns h) k1;
        if decide (c_inn d = c_inn c) then
          if coin j then
            upd_conn h k1 (fun c => set_flag (c_flag d) (set_weight (fun _ => c_weight d) c))
          else inherit coin g2 k1 (S j) l h
        else inherit coin g2 k1 (S j) l h
    end.

  (** mutations.c:505-760 crossover.  [coin i j] is the outcome of [r2() >= 0.5] when the i-th
      connection of the copy meets the j-th connection of the second parent.  The numbers of the
      nodes index the array node_array of [nn] entries (509, 533). *)
  Definition crossover (coin : nat -> nat -> bool) (g g2 : genome) (nc nn : nat)
    : option genome :=
    g1 ← copy_genome g;
    c1 ← get_connections g1 nc;
    c2 ← get_connections g2 nc;
    let fresh := cross_nodes g1 g2 in
    if decide (Forall (fun n => 1 <= n_inn n <= nn) fresh) then
      h ← each (cross_conn g1 g2 c1) c2
            (mkGenome (g_nodes g1 ++ fresh) (g_conns g1) (g_input g1) (g_output g1));
      for_loop (length c1) 0 (fun i h => k1 ← rd c1 i; inherit (coin i) g2 k1 0 c2 h) h
    else None.

  (** mutations.c:763-779 activate_bias: reads the bias flags in a random order *)
  Definition activate_bias (rmax : Z) (rand : nat -> Z) (g : genome) : option genome :=
    let tot := length (g_nodes g) in
    temp ← shuffle_matrix rmax rand (seq 0 tot) tot;
    (fix go (l : list nat) : option genome :=
       match l with
       | [] => Some g
       | i :: l =>
           n ← rd (g_nodes g) i;
           b ← n_bias n;
           if (b : bool) then go l
           else ns ← wr (g_nodes g) i (mkNode (n_inn n) (n_in n) (n_out n) (Some true));
                Some (mkGenome ns (g_conns g) (g_input g) (g_output g))
       end) temp.

  (** neat_utils.c:902-914 and 919-931: the array of connections of a node, sorted by number *)
  Definition sort_conns (g : genome) (ks : list nat) : option (list nat) :=
    ns ← mapM (fun k => c ← rd (g_conns g) k; Some (c_inn c)) ks;
    is_ ← quick_sort_array Nat.ltb ns (seq 0 (length ks));
    mapM (rd ks) is_.

  (** the position of [i] in a list of indices *)
  Fixpoint position (i : nat) (l : list nat) : nat :=
    match l with [] => 0 | j :: l => if decide (j = i) then 0 else S (position i l) end.

  (** neat_utils.c:883-935 adjust_genome: the nodes, and the connections of every node, are sorted
      by innovation number.  The pointers to nodes stay the same, so their indices in the new
      array change: the node that was at [i] is now where [i] stands among the sorted indices. *)
  Definition adjust_genome (g : genome) : option genome :=
    is_ ← quick_sort_array Nat.ltb (n_inn <$> g_nodes g) (seq 0 (length (g_nodes g)));
    ns ← mapM (rd (g_nodes g)) is_;
    ns' ← mapM (fun n => ins ← sort_conns g (n_in n); outs ← sort_conns g (n_out n);
                         Some (mkNode (n_inn n) ins outs (n_bias n))) ns;
    Some (mkGenome ns'
            ((fun c => mkConn (c_inn c) (position (c_src c) is_) (position (c_dst c) is_)
                              (c_flag c) (c_weight c)) <$> g_conns g)
            (g_input g) (g_output g)).

  (** neat_utils.c:717-753 free_genome: the connections given to free, in order *)
  Definition free_genome (g : genome) (nc : nat) : option (list nat) := get_connections g nc.
End neat.
Arguments conn : clear implicits.
Arguments genome : clear implicits.
