(** Model of src/speciation.c and src/fitness.c: the distance of two NEAT genomes, the species of a
    population and their fitness.  Genomes are those of [Neat_Model] with real weights; floats and
    doubles are exact reals, without overflow, rounding or NaN. *)
From Coq Require Import Reals.
From Verif Require Import Base Shuffle_Model Sort_Model Neat_Model.
Open Scope nat_scope.

(** speciation.c:74-77, 79-82, 112-115, 117-120: a disabled connection counts as weight 0 *)
Definition used_weight (c : conn R) : R := if c_flag c then c_weight c else 0%R.

(** speciation.c:50-54, 56-60: the presence array (of [nc] ints, zeroed) and the largest number *)
Definition presence (g : genome R) (nc : nat) (ks : list nat) : option (list bool * nat) :=
  each (fun s k => c ← rd (g_conns g) k; p ← minus_one (c_inn c); a ← wr (fst s) p true;
                   Some (a, if decide (snd s < c_inn c) then c_inn c else snd s))
       ks (replicate nc false, 0).

(** speciation.c:72-90, 105-123: |difference| with the first connection of the other genome that has
    the same number; 0 if the loop ends without finding one *)
Fixpoint difference (h : genome R) (c : conn R) (ks : list nat) : option R :=
  match ks with
  | [] => Some 0%R
  | k :: ks =>
      d ← rd (g_conns h) k;
      if decide (c_inn c = c_inn d) then
        let t := (used_weight c - used_weight d)%R in
        Some (if Rlt_dec t 0 then (- t)%R else t)
      else difference h c ks
  end.

(** the counters excess, disjoint, matching (floats holding small whole numbers) and m *)
Record tally := mkTally { t_excess : nat; t_disjoint : nat; t_matching : nat; t_m : R }.

(** speciation.c:63-92 (g = g2, h = g1) and 96-125 (g = g1, h = g2): one connection of g against h,
    whose presence array is [arr] and whose largest number is [top].  In the second case the code
    computes |w2 - w1| where this computes |w1 - w2|. *)
Definition compare_gene (g h : genome R) (hs : list nat) (arr : list bool) (top : nat)
    (s : tally) (k : nat) : option tally :=
  c ← rd (g_conns g) k; p ← minus_one (c_inn c); b ← rd arr p;
  if (b : bool) then
    d ← difference h c hs;
    Some (mkTally (t_excess s) (t_disjoint s) (t_matching s + 1) (t_m s + d)%R)
  else if decide (top < c_inn c) then
    Some (mkTally (t_excess s + 1) (t_disjoint s) (t_matching s) (t_m s))
  else Some (mkTally (t_excess s) (t_disjoint s + 1) (t_matching s) (t_m s)).

(** speciation.c:27-145 compute_species_distance *)
Definition compute_species_distance (g1 g2 : genome R) (nc : nat) : option R :=
  c1 ← get_connections g1 nc;
  c2 ← get_connections g2 nc;
  let n1 := length c1 in
  let n2 := length c2 in
  let max_n := if decide (n2 < n1) then n1 else n2 in
  let max_n := if decide (max_n < 20 + g_input g1 * g_output g1) then 1 else max_n in
  a1 ← presence g1 nc c1;
  a2 ← presence g2 nc c2;
  t ← (if decide (snd a1 < snd a2)
       then each (compare_gene g2 g1 c1 (fst a1) (snd a1)) c2 (mkTally 0 0 0 0)
       else each (compare_gene g1 g2 c2 (fst a2) (snd a2)) c1 (mkTally 0 0 0 0));
  let m := if decide (t_matching t = 0) then t_m t else (t_m t / INR (t_matching t))%R in
  Some (INR (t_excess t) / INR max_n + INR (t_disjoint t) / INR max_n + m * (4 / 10))%R.

(** genome.h: fitness and specie_rip of a genome *)
Record individual := mkInd { i_genome : genome R; i_fitness : R; i_rip : Z }.

(** species.h: [typedef struct species].  numb_all_other_genomes is the length of the list. *)
Record specie := mkSpecie {
  s_rep : individual; s_members : list individual; s_age : Z; s_best : R; s_rip : Z }.

(** neat_utils.c:755-764 copy_genome: with the fitness and specie_rip *)
Definition copy_individual (x : individual) : option individual :=
  g ← copy_genome (i_genome x); Some (mkInd g (i_fitness x) (i_rip x)).

(** speciation.c:155-163, 176-184, 236-244, 273-281: a species founded by a genome *)
Definition found_specie (x : individual) : option specie :=
  r ← copy_individual x; m ← copy_individual x;
  Some (mkSpecie r [m] 1 (i_fitness x) 0).

(** speciation.c:168-173, 249-250: the first species whose representative is nearer than the
    threshold *)
Fixpoint find_specie (nc : nat) (threshold : R) (l : list specie) (x : individual)
  : option (option nat) :=
  match l with
  | [] => Some None
  | s :: l =>
      d ← compute_species_distance (i_genome (s_rep s)) (i_genome x) nc;
      if Rlt_dec d threshold then Some (Some 0)
      else r ← find_specie nc threshold l x; Some (option_map S r)
  end.

(** speciation.c:148-195 create_species.  With no species yet the search finds none, as in the C
    code's special case. *)
Definition create_species (gs : list individual) (nc : nat) (threshold : R) : option (list specie) :=
  each (fun l x =>
    r ← find_specie nc threshold l x;
    match r with
    | Some _ => Some l
    | None => s ← found_specie x; Some (l ++ [s])
    end) gs [].

(** speciation.c:234-286: one genome joins a species or founds one *)
Definition place (nc : nat) (threshold : R) (l : list specie) (x : individual)
  : option (list specie) :=
  r ← find_specie nc threshold l x;
  match r with
  | Some j =>
      s ← rd l j; m ← copy_individual x;
      wr l j (mkSpecie (s_rep s) (s_members s ++ [m]) (s_age s) (s_best s) (s_rip s))
  | None => s ← found_specie x; Some (l ++ [s])
  end.

(** speciation.c:224-291 put_genome_in_species *)
Definition put_genome_in_species (rmax : Z) (rand : nat -> Z) (gs : list individual) (nc : nat)
    (threshold : R) (l : list specie) : option (list specie) :=
  gs' ← shuffle_matrix rmax rand gs (length gs);
  each (place nc threshold) gs'
    ((fun s => mkSpecie (s_rep s) (s_members s) (s_age s + 1) (s_best s) (s_rip s)) <$> l).

(** speciation.c:211-222 free_species_except_for_rapresentatives *)
Definition clear_species (l : list specie) : list specie :=
  (fun s => mkSpecie (s_rep s) [] (s_age s) (s_best s) (s_rip s)) <$> l.

(** speciation.c:293-300 update_best_specie_fitnesses *)
Definition update_best (l : list specie) : list specie :=
  (fun s => mkSpecie (s_rep s) (s_members s) (s_age s)
              (foldl (fun b m => Rmax b (i_fitness m)) (s_best s) (s_members s)) (s_rip s)) <$> l.

(** speciation.c:302-313 get_oldest_age *)
Definition oldest_age (l : list specie) : Z :=
  foldl (fun mx s => if decide (s_members s = []) then mx
                     else if decide (mx < s_age s)%Z then s_age s else mx) (-1)%Z l.

(** speciation.c:315-340 delete_species_without_population *)
Definition delete_empty (l : list specie) : list specie := filter (fun s => s_members s <> []) l.

(** fitness.c:146-156 get_mean_specie_fitness_no_norm *)
Definition raw_fitness (oldest : Z) (sig : R) (s : specie) : R :=
  if decide (s_members s = []) then 0%R
  else (foldl (fun a m => a + i_fitness m) 0 (s_members s) / INR (length (s_members s))
        * (1 + IZR (oldest - s_age s) * sig))%R.

(** fitness.c:123-136 get_mean_specie_fitness *)
Definition norm_fitness (oldest : Z) (sig worst best : R) (s : specie) : R :=
  if decide (s_members s = []) then 0%R
  else if Req_EM_T (best - worst) 0 then 0%R
  else ((foldl (fun a m => a + i_fitness m) 0 (s_members s) / INR (length (s_members s))
         * (1 + IZR (oldest - s_age s) * sig) - worst) / (best - worst))%R.

(** fitness.c:62-81 get_best_specie_fitness, 93-112 get_worst_specie_fitness *)
Definition best_fitness (oldest : Z) (sig : R) (l : list specie) : R :=
  match l with
  | [] => 0%R
  | s :: l => foldl (fun b s => if Rlt_dec b (raw_fitness oldest sig s) then raw_fitness oldest sig s
                                else b) (raw_fitness oldest sig s) l
  end.
Definition worst_fitness (oldest : Z) (sig : R) (l : list specie) : R :=
  match l with
  | [] => 0%R
  | s :: l => foldl (fun b s => if Rlt_dec (raw_fitness oldest sig s) b then raw_fitness oldest sig s
                                else b) (raw_fitness oldest sig s) l
  end.

(** fitness.c:39-50 get_mean_fitness *)
Definition mean_fitness (oldest : Z) (sig worst best : R) (l : list specie) : R :=
  if decide (l = []) then 0%R
  else (foldl (fun a s => a + norm_fitness oldest sig worst best s) 0 l / INR (length l))%R.

(** the conversion of a float to int in the C code, towards zero, of values that fit *)
Definition trunc (x : R) : Z := if Rle_dec 0 x then Int_part x else (- Int_part (- x))%Z.

(** fitness.c:166-185 sort_genomes_by_fitness, with [sort] of utils.c, which compares values
    truncated to int *)
Definition sort_by_fitness (gs : list individual) : option (list individual) :=
  is_ ← sort_array 1 ((fun x => trunc (i_fitness x)) <$> gs) (seq 0 (length gs));
  mapM (rd gs) (rev is_).
