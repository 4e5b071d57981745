(** Model of src/neat.c: the start of an evolution ([init]) and one generation
    ([neat_generation_run]).

    The random numbers are arguments.  The rates (of mutation, of crossover ...) are only used in
    tests [r2() < rate]; a test is modelled by its outcome, an argument, so the rates, and the tests
    for big and small species that choose between two rates, do not appear; nor do last_fitness,
    fitness_counter and the counters that only adapt a rate or are never read.  The files written by
    save_genome_complete are left out.  Floats and doubles are exact reals. *)
From Coq Require Import Reals.
From Verif Require Import Base Shuffle_Model Sort_Model Neat_Model Species_Model.
Open Scope nat_scope.

(** neat_utils.c:29-33 round_up *)
Definition round_up (x : R) : Z := if Req_EM_T x (IZR (trunc x)) then trunc x else (trunc x + 1)%Z.

(** neat_structure.h: the parameters of an evolution *)
Record settings := mkSettings {
  threshold : R; max_pop : nat; children : nat; survivors : R;
  limiting : Z; limiting_threshold : Z; keep_parents : bool; age_sig : R }.

(** neat.c:126-127: the entries of the arrays gg and temp_gg2 *)
Definition capacity (c : settings) : nat := max_pop c * 3 * 20 * children c * 4.

(** assignment to [array[n]] where n entries are in use *)
Definition push {A} (c : settings) (l : list A) (x : A) : option (list A) :=
  if decide (length l < capacity c) then Some (l ++ [x]) else None.

(** The random numbers that one child uses: shuffle and tosses of activate_connections, the new
    weights, the two tests before a connection is added or removed, the shuffles and the weight of
    add_random_connection, the shuffle of remove_random_connection, the test and the shuffle of
    split_random_connection *)
Record child_luck := mkLuck {
  cl_act : nat -> Z; cl_coin : nat -> bool; cl_weights : nat -> R -> R;
  cl_first : bool; cl_second : bool; cl_add1 : nat -> Z; cl_add2 : nat -> Z; cl_w : R;
  cl_rem : nat -> Z; cl_split : bool; cl_srand : nat -> Z }.

(** The random numbers of one generation: RAND_MAX, the shuffle before speciation, those of the
    children (by their position in gg), the test at neat.c:364 for each species, the shuffle before
    crossover, the tests before each crossover, their tosses *)
Record gen_luck := mkGenLuck {
  lk_rmax : Z; lk_place : nat -> Z; lk_child : nat -> child_luck; lk_rip : nat -> bool;
  lk_pairs : nat -> Z; lk_cross : nat -> bool; lk_coins : nat -> nat -> nat -> bool }.

(** struct neat: the part that changes; [n_best] is nes->g *)
Record neat := mkNeat {
  n_globals : globals; n_gg : list individual; n_species : list specie; n_best : option individual }.

Definition set_genome (x : individual) (g : genome R) : individual := mkInd g (i_fitness x) (i_rip x).
Definition set_fitness (x : individual) (f : R) : individual := mkInd (i_genome x) f (i_rip x).

(** neat.c:386-437: a mutated copy of [x]; [rip] is specie_rip of the representative *)
Definition make_child (c : settings) (rmax : Z) (lk : child_luck) (rip : Z) (G : globals)
    (x : individual) : option (globals * individual) :=
  y ← copy_individual x;
  r ← activate_connections rmax (cl_act lk) (cl_coin lk) (i_genome y) (gl_conns G);
  g ← connections_mutation (snd r) (gl_conns G) (cl_weights lk);
  let add := r ← add_random_connection rmax (cl_add1 lk) (cl_add2 lk) (cl_w lk) G g;
             Some (snd (fst r), snd r) in
  let remove := r ← flip_random_connection true rmax (cl_rem lk) g (gl_conns G); Some (G, snd r) in
  let one := if decide (rip < limiting c - limiting_threshold c)%Z then add else remove in
  let other := if decide (rip < limiting c - limiting_threshold c)%Z then remove else add in
  r ← (if cl_first lk then one else if cl_second lk then other else Some (G, g));
  r' ← (if cl_split lk then
          s ← split_random_connection 1%R rmax (cl_srand lk) (fst r) (snd r);
          Some (snd (fst s), snd s)
        else Some r);
  Some (fst r', set_genome y (snd r')).

(** neat.c:380-440: the children of a species whose sorted members are [ms]; [T] is
    children*bb, [step] is round_up(numb*percentage_survivors_per_specie).  The inner loop stops at
    the first w for which the test at 382 holds; the test then holds for all larger w, so the model
    goes on without doing anything. *)
Fixpoint breed (fuel : nat) (c : settings) (lk : gen_luck) (rip : Z) (ms : list individual)
    (T step z : Z) (s : globals * list individual) : option (globals * list individual) :=
  match fuel with
  | 0 => None
  | S fuel =>
      if decide (z < T)%Z then
        s' ← for_loop (length ms) 0 (fun w s =>
               if decide (step <= Z.of_nat w \/ T <= z + Z.of_nat w)%Z then Some s
               else x ← rd ms w;
                    r ← make_child c (lk_rmax lk) (lk_child lk (length (snd s))) rip (fst s) x;
                    gg ← push c (snd s) (snd r);
                    Some (fst r, gg)) s;
        breed fuel c lk rip ms T step (z + step)%Z s'
      else Some s
  end.

(** neat.c:322-340: how many times better than the mean [a] a species of fitness [b] is; the code
    also replaces [a] *)
Definition relative (a b : R) : R * R :=
  if Req_EM_T b a then (a, 1%R)
  else let a' := if Req_EM_T a 0 then (1 / 1000)%R else a in
       let b' := (b / a')%R in
       (a', if Rlt_dec 20 b' then 20%R else if Req_EM_T b' 0 then (1 / 10000)%R else b').

(** The state of the loop at neat.c:319-447: the species already treated, globals, gg, temp_gg2, a *)
Record breeding := mkBreeding {
  b_species : list specie; b_globals : globals; b_gg : list individual;
  b_champions : list individual; b_a : R }.

(** neat.c:319-447: one species, of fitness [b] *)
Definition breed_species (c : settings) (lk : gen_luck) (n_sp : nat) (b : R)
    (st : breeding) (s : specie) : option breeding :=
  let '(a, b) := relative (b_a st) b in
  ms ← sort_by_fitness (s_members s);
  if decide (i_rip (s_rep s) < limiting c \/ Z.of_nat n_sp < 10)%Z then
    m0 ← rd ms 0;
    let rip := if Rle_dec (i_fitness m0) (s_best s) then (s_rip s + 1)%Z else 0%Z in
    let few := bool_decide (Z.of_nat n_sp < 10 /\ limiting c - limiting_threshold c < i_rip (s_rep s))%Z in
    let rip := if few then (limiting c - limiting_threshold c)%Z else rip in
    let rep := if few && lk_rip lk (length (b_species st))
               then mkInd (i_genome (s_rep s)) (i_fitness (s_rep s)) (i_rip (s_rep s) - 1)
               else s_rep s in
    ch ← (if Rle_dec a b then m ← copy_individual m0; push c (b_champions st) m
          else Some (b_champions st));
    let T := (Z.of_nat (children c) * round_up (b * (5 / 2)))%Z in
    let step := round_up (INR (length ms) * survivors c) in
    r ← breed (Z.to_nat T + 1) c lk (i_rip rep) ms T step 0%Z (b_globals st, b_gg st);
    Some (mkBreeding (b_species st ++ [mkSpecie rep (s_members s) (s_age s) (s_best s) rip])
            (fst r) (snd r) ch a)
  else Some (mkBreeding (b_species st ++ [s]) (b_globals st) (b_gg st) (b_champions st) a).

(** neat.c:459-468: the champions are shuffled and crossed two by two *)
Definition cross_champions (c : settings) (lk : gen_luck) (G : globals) (ch gg : list individual)
  : option (list individual) :=
  if decide (1 < length ch) then
    ch' ← shuffle_matrix (lk_rmax lk) (lk_pairs lk) ch (length ch);
    for_loop (length ch' / 2) 0 (fun i gg =>
      if lk_cross lk i then
        x ← rd ch' (2 * i); y ← rd ch' (2 * i + 1);
        g ← crossover (lk_coins lk i) (i_genome x) (i_genome y) (gl_conns G) (gl_nodes G);
        push c gg (mkInd g 0 (i_rip x))
      else Some gg) gg
  else Some gg.

(** neat.c:214-224: the first of the fittest genomes *)
Definition fittest (gs : list individual) : option individual :=
  match gs with
  | [] => None
  | x :: gs => Some (foldl (fun b y => if Rlt_dec (i_fitness b) (i_fitness y) then y else b) x gs)
  end.

(** neat.c:254-274: the population is cut to max_pop genomes, the fitness is rescaled; [worst] is
    worst_fitness and [best] is nes->n *)
Definition cut (c : settings) (gs : list individual) : option (list individual) :=
  if decide (max_pop c < length gs) then gs' ← sort_by_fitness gs; Some (take (max_pop c) gs')
  else Some gs.
Definition rescale (worst best : R) (gs : list individual) : list individual :=
  let d := (best - worst)%R in
  let d := if Req_EM_T d 0 then (1 / 10000)%R else d in
  (fun x => set_fitness x ((i_fitness x - worst) / d)%R) <$> gs.

(** neat.c:278-289: the species of the generation, those that are empty removed *)
Definition speciate (c : settings) (lk : gen_luck) (nc : nat) (gs : list individual) (l : list specie)
  : option (list specie) :=
  l' ← put_genome_in_species (lk_rmax lk) (lk_place lk) gs nc (threshold c) l;
  Some (delete_empty l').

(** neat.c:292-457: the next generation is made from the species: mutated children, the champions of
    the species, their children.  Result: species, globals, genomes.  The specie fitness used in the
    loop (neat.c:322) depends on the members and ages only, which the loop does not change. *)
Definition reproduce (c : settings) (lk : gen_luck) (G : globals) (l : list specie)
  : option (list specie * globals * list individual) :=
  let oldest := oldest_age l in
  let best := best_fitness oldest (age_sig c) l in
  let worst := worst_fitness oldest (age_sig c) l in
  let a := mean_fitness oldest (age_sig c) worst best l in
  st ← each (fun st s => breed_species c lk (length l) (norm_fitness oldest (age_sig c) worst best s) st s)
         l (mkBreeding [] G [] [] a);
  gg ← (if keep_parents c then each (fun gg x => y ← copy_individual x; push c gg y) (b_champions st) (b_gg st)
        else Some (b_gg st));
  gg' ← cross_champions c lk (b_globals st) (b_champions st) gg;
  Some (clear_species (update_best (b_species st)), b_globals st, gg').

(** neat.c:475-485: the best genome is added, the fitness of all is reset, all are tidied *)
Definition finish (c : settings) (gg : list individual) (best : individual)
  : option (list individual) :=
  y ← copy_individual best;
  gg' ← push c gg y;
  mapM (fun x => g ← adjust_genome (i_genome x); Some (mkInd g 0 (i_rip x))) gg'.

(** neat.c:207-487 neat_generation_run; [stop] is the test k == generations *)
Definition neat_generation_run (c : settings) (lk : gen_luck) (stop : bool) (st : neat) : option neat :=
  first ← rd (n_gg st) 0;
  best ← fittest (n_gg st);
  saved ← copy_individual best;
  if stop then Some (mkNeat (n_globals st) (n_gg st) (n_species st) (Some saved)) else
  gs ← cut c (n_gg st);
  l ← speciate c lk (gl_conns (n_globals st))
        (rescale (i_fitness first) (i_fitness best) gs) (n_species st);
  r ← reproduce c lk (n_globals st) l;
  gg ← finish c (snd r) saved;
  Some (mkNeat (snd (fst r)) gg (fst (fst r)) None).

(** The random numbers of [init]: for each genome, those of the connections added to it and of the
    new weights *)
Record init_luck := mkInitLuck {
  il_rmax : Z; il_add1 : nat -> nat -> nat -> Z; il_add2 : nat -> nat -> nat -> Z; il_w : nat -> nat -> R;
  il_weights : nat -> nat -> R -> R }.

(** neat.c:134-144: genome number i gets input*output random connections and new weights *)
Definition init_connect (lk : init_luck) (n : nat) (i : nat) (G : globals) (x : individual)
  : option (globals * individual) :=
  r ← for_loop n 0 (fun j s =>
        r ← add_random_connection (il_rmax lk) (il_add1 lk i j) (il_add2 lk i j) (il_w lk i j) (fst s) (snd s);
        Some (snd (fst r), snd r)) (G, i_genome x);
  g ← connections_mutation (snd r) (gl_conns (fst r)) (il_weights lk i);
  Some (fst r, set_genome x g).

(** neat.c:4-193 init, without the checks of the parameters *)
Definition init (c : settings) (lk : init_luck) (input output initial : nat) : option neat :=
  x0 ← copy_individual (mkInd (init_genome input output) 0 0);
  s ← for_loop (initial - 1) 1 (fun i s =>
        x ← copy_individual x0;
        r ← init_connect lk (input * output) i (fst s) x;
        gg ← push c (snd s) (snd r);
        Some (fst r, gg)) (init_globals input output, [x0]);
  r ← init_connect lk (input * output) 0 (fst s) x0;
  gg ← wr (snd s) 0 (snd r);
  l ← create_species gg (gl_conns (fst r)) (threshold c);
  Some (mkNeat (fst r) gg l None).
