(** Vocabulary for the theorems on NEAT genomes: what a genome says, when it is well formed, and
    the histories of a population. *)
From Verif Require Import Base Shuffle_Spec Neat_Model.
Open Scope nat_scope.

Section spec.
  Context {W : Type} (one : W).

  (** ** What a genome says *)

  (** the innovation numbers of its nodes, in order *)
  Definition node_numbers (g : genome W) : list nat := n_inn <$> g_nodes g.

  (** the genome has a connection number [num] from node number [a] to node number [b], enabled or
      not, with weight [w] *)
  Definition has_gene (g : genome W) (num a b : nat) (enabled : bool) (w : W) : Prop :=
    exists k i j x y,
      g_conns g !! k = Some (mkConn num i j enabled w) /\
      g_nodes g !! i = Some x /\ n_inn x = a /\
      g_nodes g !! j = Some y /\ n_inn y = b.

  (** ** Well-formed genomes *)

  (** the roles of the node numbers: 1..input are inputs, the next [output] ones are outputs *)
  Definition is_input (input a : nat) : Prop := 1 <= a <= input.
  Definition is_output (input output a : nat) : Prop := input < a <= input + output.

  (** The tables shared by the population are consistent: no pair of nodes has two numbers, no
      connection enters an input or leaves an output, and the node recorded as the result of
      splitting the connection a -> b has the two recorded connections a -> s and s -> b. *)
  Record consistent (input output : nat) (G : globals) : Prop := {
    co_conns : length (gl_mconns G) = gl_conns G;
    co_dict : length (gl_dict G) = gl_conns G;
    co_mnodes : length (gl_mnodes G) = gl_nodes G;
    co_nodes : input + output <= gl_nodes G;
    co_unique : NoDup (gl_mconns G);
    co_ends : forall p a b, gl_mconns G !! p = Some (a, b) ->
      1 <= a <= gl_nodes G /\ 1 <= b <= gl_nodes G /\
      ~ is_output input output a /\ ~ is_input input b;
    co_split : forall p s, gl_dict G !! p = Some s -> s <> 0 ->
      input + output < s <= gl_nodes G /\
      exists a b e1 e2, gl_mconns G !! p = Some (a, b) /\
        gl_mnodes G !! (s - 1) = Some (Some (S e1, S e2)) /\
        gl_mconns G !! e1 = Some (a, s) /\ gl_mconns G !! e2 = Some (s, b);
    co_once : forall p p' s, gl_dict G !! p = Some s -> gl_dict G !! p' = Some s -> s <> 0 ->
      p = p' }.

  (** A genome is well formed when it has the input and output nodes, its nodes and its connections
      have distinct numbers, every connection joins two of its nodes, the pair recorded for its
      number, and the lists of the nodes hold exactly the connections that leave and enter them,
      once each. *)
  Record well_formed (input output : nat) (G : globals) (g : genome W) : Prop := {
    wf_input : g_input g = input;
    wf_output : g_output g = output;
    wf_base : forall i, i < input + output ->
      exists n, g_nodes g !! i = Some n /\ n_inn n = i + 1;
    wf_numbers : NoDup (node_numbers g);
    wf_range : forall a, a ∈ node_numbers g -> 1 <= a <= gl_nodes G;
    wf_genes : NoDup (c_inn <$> g_conns g);
    wf_ends : forall k c, g_conns g !! k = Some c ->
      exists p x y, c_inn c = S p /\ g_nodes g !! c_src c = Some x /\
        g_nodes g !! c_dst c = Some y /\ gl_mconns G !! p = Some (n_inn x, n_inn y);
    wf_lists : forall i n, g_nodes g !! i = Some n ->
      NoDup (n_out n) /\ NoDup (n_in n) /\
      (forall k, k ∈ n_out n <-> exists c, g_conns g !! k = Some c /\ c_src c = i) /\
      (forall k, k ∈ n_in n <-> exists c, g_conns g !! k = Some c /\ c_dst c = i) }.

  (** ** What the calls do *)

  (** One enabled connection num : a -> b, of weight w, is disabled and replaced by a -> s -> b
      through a node s that the genome did not have; the first half has weight 1, the second w.
      The number of s is the one recorded for the split of connection num, if there is one
      ([gl_dict], entry num - 1); otherwise it is new, and recorded, and so are the two numbers of
      the halves. *)
  Definition split_effect (G G' : globals) (g g' : genome W) : Prop :=
    exists num a b w s e1 e2,
      has_gene g num a b true w /\ s ∉ node_numbers g /\
      node_numbers g' = node_numbers g ++ [s] /\
      (forall n' a' b' e' w', has_gene g' n' a' b' e' w' <->
        (n' <> num /\ has_gene g n' a' b' e' w') \/
        (n' = num /\ a' = a /\ b' = b /\ e' = false /\ w' = w) \/
        (n' = e1 /\ a' = a /\ b' = s /\ e' = true /\ w' = one) \/
        (n' = e2 /\ a' = s /\ b' = b /\ e' = true /\ w' = w)) /\
      gl_dict G' !! (num - 1) = Some s /\
      ((gl_dict G !! (num - 1) = Some s /\ G' = G) \/
       (gl_dict G !! (num - 1) = Some 0 /\ s = gl_nodes G + 1 /\ e1 = gl_conns G + 1 /\ e2 = gl_conns G + 2 /\
        gl_nodes G' = gl_nodes G + 1 /\ gl_conns G' = gl_conns G + 2)).

  (** one connection whose flag is [v] gets the flag [negb v]; nothing else changes *)
  Definition flip_effect (v : bool) (g g' : genome W) : Prop :=
    exists num a b w, has_gene g num a b v w /\ node_numbers g' = node_numbers g /\
      forall n' a' b' e' w', has_gene g' n' a' b' e' w' <->
        (n' <> num /\ has_gene g n' a' b' e' w') \/
        (n' = num /\ a' = a /\ b' = b /\ e' = negb v /\ w' = w).

  (** One enabled connection of weight w is added between two nodes of the genome that were not
      joined, from one that is not an output to one that is not an input; its number is the one
      recorded for the pair, if there is one, and a new one otherwise. *)
  Definition connect_effect (input output : nat) (w : W) (G G' : globals) (g g' : genome W) : Prop :=
    exists num a b, a ∈ node_numbers g /\ b ∈ node_numbers g /\
      ~ is_output input output a /\ ~ is_input input b /\
      (forall n' e' w', ~ has_gene g n' a b e' w') /\
      node_numbers g' = node_numbers g /\
      (forall n' a' b' e' w', has_gene g' n' a' b' e' w' <->
        has_gene g n' a' b' e' w' \/ (n' = num /\ a' = a /\ b' = b /\ e' = true /\ w' = w)) /\
      gl_nodes G' = gl_nodes G /\
      ((gl_mconns G !! (num - 1) = Some (a, b) /\ G' = G) \/
       ((a, b) ∉ gl_mconns G /\ num = gl_conns G + 1 /\ gl_conns G' = gl_conns G + 1 /\
        gl_mconns G' = gl_mconns G ++ [(a, b)])).

  (** The child has the nodes of the first parent, then those that only the second has.  A
      connection number of one parent only comes with the flag and the weight it has there; for a
      number of both, [choose] says whether they come from the second parent. *)
  Definition child_of (choose : nat -> bool) (g g2 child : genome W) : Prop :=
    (exists new, node_numbers child = node_numbers g ++ new /\
       forall s, s ∈ new <-> s ∈ node_numbers g2 /\ s ∉ node_numbers g) /\
    forall num a b e w, has_gene child num a b e w <->
      (has_gene g num a b e w /\
        ((forall a' b' e' w', ~ has_gene g2 num a' b' e' w') \/ choose num = false)) \/
      (has_gene g2 num a b e w /\
        ((forall a' b' e' w', ~ has_gene g num a' b' e' w') \/ choose num = true)).

  (** The genome is the same, with its nodes in increasing order of their numbers, and so are the
      connections in the two lists of every node. *)
  Definition increasing (l : list nat) : Prop :=
    forall i j x y, i < j -> l !! i = Some x -> l !! j = Some y -> x < y.
  Definition tidied (g g' : genome W) : Prop :=
    (node_numbers g' ≡ₚ node_numbers g) /\ increasing (node_numbers g') /\
    (forall num a b e w, has_gene g' num a b e w <-> has_gene g num a b e w) /\
    forall i n, g_nodes g' !! i = Some n ->
      exists ins outs, mapM (rd (g_conns g')) (n_in n) = Some ins /\ increasing (c_inn <$> ins) /\
        mapM (rd (g_conns g')) (n_out n) = Some outs /\ increasing (c_inn <$> outs).

  (** ** Histories of a population *)

  Definition population : Type := globals * list (genome W).

  (** One call of the library on genome number [m] of the population.  The sequences of random
      numbers are part of the call. *)
  Inductive call :=
  | New
  | Copy (m : nat)
  | Discard (m : nat)
  | Split (m : nat) (rmax : Z) (rand : nat -> Z)
  | Connect (m : nat) (rmax : Z) (rand1 rand2 : nat -> Z) (w : W)
  | Remove (m : nat) (rmax : Z) (rand : nat -> Z)
  | Activate (m : nat) (rmax : Z) (rand : nat -> Z)
  | ActivateMany (m : nat) (rmax : Z) (rand : nat -> Z) (coin : nat -> bool)
  | Weights (m : nat) (f : nat -> W -> W)
  | Cross (m m' : nat) (coin : nat -> nat -> bool)
  | Tidy (m : nat).

  (** The random numbers of a call are possible results of rand(). *)
  Definition possible (o : call) : Prop :=
    match o with
    | Split _ rmax rand | Remove _ rmax rand | Activate _ rmax rand
    | ActivateMany _ rmax rand _ => rand_ok rmax rand
    | Connect _ rmax rand1 rand2 _ => rand_ok rmax rand1 /\ rand_ok rmax rand2
    | _ => True
    end.

  (** the population after a call; [None] is undefined behaviour; a call on a genome that does not
      exist is no call *)
  Definition perform (input output : nat) (P : population) (o : call) : option population :=
    let '(G, l) := P in
    let at_ m (f : genome W -> option population) :=
      match l !! m with Some g => f g | None => Some P end in
    match o with
    | New => Some (G, l ++ [init_genome input output])
    | Copy m => at_ m (fun g => g' ← copy_genome g; Some (G, l ++ [g']))
    | Discard m => at_ m (fun g => _ ← free_genome g (gl_conns G); Some (G, delete m l))
    | Split m rmax rand => at_ m (fun g =>
        r ← split_random_connection one rmax rand G g;
        Some (snd (fst r), <[m:=snd r]> l))
    | Connect m rmax rand1 rand2 w => at_ m (fun g =>
        r ← add_random_connection rmax rand1 rand2 w G g;
        Some (snd (fst r), <[m:=snd r]> l))
    | Remove m rmax rand => at_ m (fun g =>
        r ← flip_random_connection true rmax rand g (gl_conns G); Some (G, <[m:=snd r]> l))
    | Activate m rmax rand => at_ m (fun g =>
        r ← flip_random_connection false rmax rand g (gl_conns G); Some (G, <[m:=snd r]> l))
    | ActivateMany m rmax rand coin => at_ m (fun g =>
        r ← activate_connections rmax rand coin g (gl_conns G); Some (G, <[m:=snd r]> l))
    | Weights m f => at_ m (fun g =>
        g' ← connections_mutation g (gl_conns G) f; Some (G, <[m:=g']> l))
    | Cross m m' coin => at_ m (fun g => at_ m' (fun g2 =>
        g' ← crossover coin g g2 (gl_conns G) (gl_nodes G); Some (G, l ++ [g'])))
    | Tidy m => at_ m (fun g => g' ← adjust_genome g; Some (G, <[m:=g']> l))
    end.

  Fixpoint history (input output : nat) (P : population) (os : list call) : option population :=
    match os with
    | [] => Some P
    | o :: os => P' ← perform input output P o; history input output P' os
    end.

  (** every population that some sequence of possible calls leads to *)
  Definition reachable (input output : nat) (P : population) : Prop :=
    exists os, Forall possible os /\ history input output (init_globals input output, []) os = Some P.
End spec.
Arguments call : clear implicits.
