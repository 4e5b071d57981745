(** Model of saving and loading NEAT genomes and populations: src/neat_utils.c:36-599 and
    src/neat.c:514-570, 694-742, 894-928.

    A file, or the array of characters, is a list of 4-byte words, ints and floats.  Reading a word
    of the other kind, or past the end, is undefined behaviour ([None]): in the C code the variable
    stays uninitialised, or memory outside the array is read.  Left out: the names of the files,
    failures of fopen and fwrite, overflow of the int counters, the fields that belong to the
    search parameters of a population and its species.

    [cv] and [cvw] are what convert_data (utils.c:1575-1579) does to an int and to a float: the
    identity on a little-endian machine. *)
From Verif Require Import Base Neat_Model.
Open Scope nat_scope.

Section gsave.
  Context {W : Type}.
  Variable cv : Z -> Z.
  Variable cvw : W -> W.

  Inductive word := Int (z : Z) | Flt (w : W).

  (** ** Writing *)

  (** neat_utils.c:64-74, one node *)
  Definition node_words (n : nd) : list word :=
    [Int (cv (Z.of_nat (length (n_in n)))); Int (cv (Z.of_nat (length (n_out n))));
     Int (cv (Z.of_nat (n_inn n)))].

  (** neat_utils.c:201-214, one node: lines 206 and 208 convert in_conn_size, and not the
      out_conn_size that line 207 copies *)
  Definition node_words_array (n : nd) : list word :=
    [Int (cv (Z.of_nat (length (n_in n)))); Int (Z.of_nat (length (n_out n)));
     Int (cv (Z.of_nat (n_inn n)))].

  (** neat_utils.c:79-95 (153-169, 221-242), one connection *)
  Definition conn_words (g : genome W) (k : nat) : option (list word) :=
    c ← rd (g_conns g) k; s ← rd (g_nodes g) (c_src c); d ← rd (g_nodes g) (c_dst c);
    Some [Int (cv (Z.of_nat (c_inn c))); Int (cv (Z.of_nat (n_inn s)));
          Int (cv (Z.of_nat (n_inn d))); Flt (cvw (c_weight c));
          Int (cv (if c_flag c then 1 else 0))].

  (** neat_utils.c:39-95, the common part; [nw] writes a node *)
  Definition genome_words (nw : nd -> list word) (g : genome W) (fit : W) (nc : nat)
    : option (list word) :=
    ks ← get_connections g nc;
    cs ← mapM (conn_words g) ks;
    Some ([Int (cv (Z.of_nat (g_input g))); Int (cv (Z.of_nat (g_output g)));
           Int (cv (Z.of_nat (length (g_nodes g)))); Flt (cvw fit)] ++
          mjoin (nw <$> g_nodes g) ++ [Int (cv (Z.of_nat (length ks)))] ++ mjoin cs).

  (** neat_utils.c:36-102 save_genome *)
  Definition save_genome : genome W -> W -> nat -> option (list word) := genome_words node_words.

  (** neat_utils.c:104-176 save_genome_complete *)
  Definition save_genome_complete (g : genome W) (fit : W) (nc nn : nat) : option (list word) :=
    ws ← genome_words node_words g fit nc;
    Some ([Int (cv (Z.of_nat nc)); Int (cv (Z.of_nat nn))] ++ ws).

  (** neat_utils.c:249-255 get_genome_array_size, in bytes *)
  Definition get_genome_array_size (g : genome W) (nc : nat) : option nat :=
    ks ← get_connections g nc;
    let n := length ks in
    Some (4 * 3 + 4 * 3 * length (g_nodes g) + 4 + 4 * 4 * n + 4 + 4 * n).

  (** neat_utils.c:178-246 get_genome_array: the words are copied to an array of the size
      computed at line 183; a longer list would be written outside of it *)
  Definition get_genome_array (g : genome W) (fit : W) (nc : nat) : option (list word) :=
    size ← get_genome_array_size g nc;
    ws ← genome_words node_words_array g fit nc;
    if decide (4 * length ws <= size) then Some ws else None.

  (** ** Reading *)

  Definition get_int (ws : list word) : option (Z * list word) :=
    match ws with Int z :: ws => Some (cv z, ws) | _ => None end.
  Definition get_flt (ws : list word) : option (W * list word) :=
    match ws with Flt w :: ws => Some (cvw w, ws) | _ => None end.

  (** a node as it is read (neat_utils.c:389-401): in_conn_size, out_conn_size, innovation_number *)
  Record rawnode := mkRaw { r_in : Z; r_out : Z; r_inn : Z }.

  Definition get_node (ws : list word) : option (rawnode * list word) :=
    '(a, ws) ← get_int ws; '(b, ws) ← get_int ws; '(c, ws) ← get_int ws; Some (mkRaw a b c, ws).

  Fixpoint get_nodes (n : nat) (ws : list word) : option (list rawnode * list word) :=
    match n with
    | 0 => Some ([], ws)
    | S n => '(x, ws) ← get_node ws; '(l, ws) ← get_nodes n ws; Some (x :: l, ws)
    end.

  (** neat_utils.c:413-418: the first node with the number; [None]: the pointer stays uninitialised *)
  Fixpoint first_with (inn : Z) (ns : list rawnode) : option nat :=
    match ns with
    | [] => None
    | n :: ns => if decide (r_inn n = inn) then Some 0 else S <$> first_with inn ns
    end.

  (** neat_utils.c:312-315: without the break, the last one *)
  Fixpoint last_with (inn : Z) (ns : list rawnode) : option nat :=
    match ns with
    | [] => None
    | n :: ns => match last_with inn ns with
                 | Some j => Some (S j)
                 | None => if decide (r_inn n = inn) then Some 0 else None
                 end
    end.

  (** the int of a flag *)
  Definition get_flag (z : Z) : option bool :=
    if decide (z = 1)%Z then Some true else if decide (z = 0)%Z then Some false else None.

  (** neat_utils.c:405-432, one turn of the loop.  The connections are kept in the order in which
      they are allocated; [tab] is the array c: the connection of each number, if any.  A
      connection whose number was met before is freed and replaced. *)
  Definition get_conn (find : Z -> list rawnode -> option nat) (ns : list rawnode)
    (st : list (option nat) * list (conn W) * list word)
    : option (list (option nat) * list (conn W) * list word) :=
    let '(tab, cs, ws) := st in
    '(inn, ws) ← get_int ws;
    _ ← (if decide (1 <= inn)%Z then Some tt else None);
    tab ← wr tab (Z.to_nat inn - 1) (Some (length cs));
    '(a, ws) ← get_int ws; s ← find a ns;
    '(b, ws) ← get_int ws; d ← find b ns;
    '(w, ws) ← get_flt ws;
    '(f, ws) ← get_int ws; flag ← get_flag f;
    Some (tab, cs ++ [mkConn (Z.to_nat inn) s d flag w], ws).

  (** neat_utils.c:437-450, turn j of the loop for the node [me] with number [num]: [acc] holds
      out_connections and in_connections so far; both arrays have the sizes read from the file *)
  Definition link_step (ns : list rawnode) (cs : list (conn W)) (me : rawnode)
    (acc : list nat * list nat) (e : option nat) : option (list nat * list nat) :=
    match e with
    | None => Some acc
    | Some k =>
        c ← rd cs k; s ← rd ns (c_src c); d ← rd ns (c_dst c);
        acc ← (if decide (r_inn s = r_inn me) then
                 if decide (Z.of_nat (length (fst acc)) < r_out me)%Z
                 then Some (fst acc ++ [k], snd acc) else None
               else Some acc);
        if decide (r_inn d = r_inn me) then
          if decide (Z.of_nat (length (snd acc)) < r_in me)%Z
          then Some (fst acc, snd acc ++ [k]) else None
        else Some acc
    end.

  (** neat_utils.c:434-453 for one node.  The node has in_conn_size and out_conn_size pointers;
      those that the loop does not reach stay uninitialised ([None]).  bias_flag is not written. *)
  Definition link_node (ns : list rawnode) (cs : list (conn W)) (tab : list (option nat))
    (me : rawnode) : option nd :=
    acc ← each (link_step ns cs me) tab ([], []);
    if decide (Z.of_nat (length (fst acc)) = r_out me /\ Z.of_nat (length (snd acc)) = r_in me)
    then Some (mkNode (Z.to_nat (r_inn me)) (snd acc) (fst acc) None) else None.

  (** neat_utils.c:373-453; the words that are left over are returned.  [find] looks for a node. *)
  Definition read_genome (find : Z -> list rawnode -> option nat) (nc : nat) (ws : list word)
    : option (genome W * W * list word) :=
    '(inp, ws) ← get_int ws;
    '(out, ws) ← get_int ws;
    '(total, ws) ← get_int ws;
    '(fit, ws) ← get_flt ws;
    '(ns, ws) ← get_nodes (Z.to_nat total) ws;
    '(n, ws) ← get_int ws;
    '(tab, cs, ws) ← for_loop (Z.to_nat n) 0 (fun _ => get_conn find ns) (replicate nc None, [], ws);
    nodes ← mapM (link_node ns cs tab) ns;
    Some (mkGenome nodes cs (Z.to_nat inp) (Z.to_nat out), fit, ws).

  (** neat_utils.c:364-473 load_genome *)
  Definition load_genome (nc : nat) (ws : list word) : option (genome W * W) :=
    '(g, fit, _) ← read_genome first_with nc ws; Some (g, fit).

  (** neat_utils.c:482-599 load_genome_complete: the genome, its fitness and the two counts *)
  Definition load_genome_complete (ws : list word) : option (genome W * W * nat * nat) :=
    '(nc, ws) ← get_int ws;
    '(nn, ws) ← get_int ws;
    '(g, fit, _) ← read_genome first_with (Z.to_nat nc) ws;
    Some (g, fit, Z.to_nat nc, Z.to_nat nn).

  (** neat_utils.c:257-362 init_genome_from_array *)
  Definition init_genome_from_array (nc : nat) (ws : list word) : option (genome W * W) :=
    '(g, fit, _) ← read_genome last_with nc ws; Some (g, fit).

  (** ** Populations *)

  (** two ints of matrix_connections, neat.c:535-540 *)
  Definition pair_words (p : nat * nat) : list word :=
    [Int (cv (Z.of_nat (fst p))); Int (cv (Z.of_nat (snd p)))].
  (** two ints of matrix_nodes, neat.c:546-551; (-1,-1) when the node is no result of a split *)
  Definition row_words (p : option (nat * nat)) : list word :=
    match p with Some p => pair_words p | None => [Int (cv (-1)); Int (cv (-1))] end.

  Definition sum_sizes (gs : list (genome W * W)) (nc : nat) : option nat :=
    each (fun s g => n ← get_genome_array_size (fst g) nc; Some (s + n)) gs 0.

  (** neat.c:563-570 get_length_of_char_neat, in bytes *)
  Definition get_length_of_char_neat (G : globals) (gs : list (genome W * W)) : option nat :=
    n ← sum_sizes gs (gl_conns G);
    Some (3 * 4 + gl_conns G * 2 * 4 + gl_conns G * 4 + gl_nodes G * 4 * 2 + n).

  (** neat.c:514-561 get_neat_in_char_vector: the words are copied to an array of the size computed
      at line 519 *)
  Definition get_neat_in_char_vector (G : globals) (gs : list (genome W * W)) : option (list word) :=
    size ← get_length_of_char_neat G gs;
    ms ← mapM (rd (gl_mconns G)) (seq 0 (gl_conns G));
    ds ← mapM (rd (gl_dict G)) (seq 0 (gl_conns G));
    rs ← mapM (rd (gl_mnodes G)) (seq 0 (gl_nodes G));
    gw ← mapM (fun g => get_genome_array (fst g) (snd g) (gl_conns G)) gs;
    let ws := [Int (cv (Z.of_nat (length gs))); Int (cv (Z.of_nat (gl_conns G)));
               Int (cv (Z.of_nat (gl_nodes G)))] ++
              mjoin (pair_words <$> ms) ++ ((fun d => Int (cv (Z.of_nat d))) <$> ds) ++
              mjoin (row_words <$> rs) ++ mjoin gw in
    if decide (4 * length ws <= size) then Some ws else None.

  Fixpoint get_pairs (n : nat) (ws : list word) : option (list (Z * Z) * list word) :=
    match n with
    | 0 => Some ([], ws)
    | S n => '(a, ws) ← get_int ws; '(b, ws) ← get_int ws;
             '(l, ws) ← get_pairs n ws; Some ((a, b) :: l, ws)
    end.
  Fixpoint get_ints (n : nat) (ws : list word) : option (list Z * list word) :=
    match n with
    | 0 => Some ([], ws)
    | S n => '(a, ws) ← get_int ws; '(l, ws) ← get_ints n ws; Some (a :: l, ws)
    end.

  (** neat.c:738-741: the next genome starts where get_genome_array_size, applied to the genome
      just read, says that this one ends *)
  Fixpoint get_genomes (n nc : nat) (ws : list word) : option (list (genome W * W)) :=
    match n with
    | 0 => Some []
    | S n => gf ← init_genome_from_array nc ws;
             size ← get_genome_array_size (fst gf) nc;
             l ← get_genomes n nc (drop (size / 4) ws); Some (gf :: l)
    end.

  (** neat.c:694-742 init_from_char: the shared tables, and the genomes, at most [max_population]
      of them *)
  Definition init_from_char (max_population : nat) (ws : list word)
    : option (globals * list (genome W * W)) :=
    '(n, ws) ← get_int ws;
    '(nc, ws) ← get_int ws;
    '(nn, ws) ← get_int ws;
    '(ms, ws) ← get_pairs (Z.to_nat nc) ws;
    '(ds, ws) ← get_ints (Z.to_nat nc) ws;
    '(rs, ws) ← get_pairs (Z.to_nat nn) ws;
    gs ← get_genomes (Nat.min (Z.to_nat n) max_population) (Z.to_nat nc) ws;
    Some (mkGlobals (Z.to_nat nn) (Z.to_nat nc) (Z.to_nat <$> ds)
            ((fun p => if decide (p = (-1, -1)%Z) then None
                       else Some (Z.to_nat (fst p), Z.to_nat (snd p))) <$> rs)
            ((fun p => (Z.to_nat (fst p), Z.to_nat (snd p))) <$> ms), gs).

  (** neat.c:907-918 save_neat: get_length_of_char_neat bytes of the array are written; when the
      array has fewer, memory outside of it is *)
  Definition save_neat (G : globals) (gs : list (genome W * W)) : option (list word) :=
    size ← get_length_of_char_neat G gs;
    ws ← get_neat_in_char_vector G gs;
    if decide (4 * length ws = size) then Some ws else None.

  (** neat.c:920-928 load_neat *)
  Definition load_neat : nat -> list word -> option (globals * list (genome W * W)) := init_from_char.

  (** neat.c:894-901 save_ith_genome.  [None]: the process ends, or gg[index] is not a genome. *)
  Definition save_ith_genome (G : globals) (gs : list (genome W * W)) (index : nat)
    : option (list word) :=
    if decide (index <= length gs) then None
    else gf ← rd gs index; save_genome (fst gf) (snd gf) (gl_conns G).
End gsave.
Arguments word : clear implicits.
