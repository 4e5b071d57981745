# Formal model of Learning-Lab-C-Library in Rocq (Coq 8.16.1)

## Approach

The library is plain C operating on arrays.  The model is a set of total Gallina
functions, one per C function (or per loop nest), each with a comment citing the
file and lines it models.  Conventions:

* **Arrays** are lists.  Where memory safety is part of the property, reads and
  writes go through an option monad (`rd`, `wr`): `None` is an out-of-bounds
  access (undefined behaviour), and a theorem that concludes `= Some r` also
  says the code never leaves its arrays.
* **Loops** are structural recursion, or recursion on fuel whose exhaustion is
  `None`; theorems conclude `Some`, so they exclude it.
* **Integers** are `nat`/`Z`, unbounded, except where the property is about
  wrap-around or overflow.
* **Floats.** Three treatments: (a) algorithms that only compare or move floats
  (heap, sort, argmax, shuffle) are parametric in the element type and a total
  preorder, i.e. they cover every non-NaN float; (b) numeric kernels
  (layers, losses, optimizers, ...) are over the real numbers `R`: rounding is
  not modelled; (c) claims about NaN use an explicit NaN case.
* **rand(), exp, sqrt**: rand() is an arbitrary sequence quantified over in the
  theorem; libm functions are their real counterparts.
* A property that is false of the code gets a theorem named `..._refuted`
  giving a concrete witness, plus the strongest true part.

## Files

Each topic T has `T_Model.v` (definitions only, cited), `T_Proofs.v` (lemmas)
and `T_Props.v` (the property theorems, closed by `exact`, with
`Print Assumptions` and non-vacuity `Example`s).  Specifications that the
theorems refer to are in `T_Spec.v` when they are longer than a line.

## Plan per property

| id | modelled | proof |
|----|----------|-------|
| C01-C03 | Fisher-Yates loops, generic in the swap body, rand stream | invariant: state is a permutation; j in [i,n); induction on loop |
| C04 | quick_sort / quick_sort_int with fuel over option-arrays | Hoare-partition invariant, strong induction on segment length |
| C05 | merge_sort/merge exactly as written | permutation by induction; refuted by witness for the ordering |
| C06 | argmax loop | induction |
| C07-C09 | max_heapify, _up, remove, add_buffer_state, update_buffer_state | almost-heap invariants, histories by fold_left |
| C10-C12 | cumulative tree, value_is_child, weighted samples | subtree-sum invariant, interval partition |
| C13 | n-step loop | induction on j with ring arithmetic |
| C14 | update_exploration_probability over R | invariant over iterations |
| C15 | trie with brother/son pointers | refinement to a set of lists |
| C16 | confusion_matrix counting and metrics | counting induction |
| C17 | learning_rate_decay.c | real inequalities; refutations by witness |
| C18, C19 | digits/bytes | round trip |
| C20-C23 | scalar functions over R | calculus (`derivable_pt_lim`), real algebra |
| C24-C28 | layer kernels over R | sums over index ranges; adjointness; bounds |
| C29, C30 | LSTM over R | bounds; derivative by chain rule |
| C31, C32 | attention, normalization | non-interference; real algebra |
| C33, C34 | optimizers, clipping | recurrences; norms |
| C35, C36 | gradient sums and their fork/join tree as programs of reads, writes and forks (Sum_Model.v), with a small-step interleaving semantics | footprints: disjoint threads commute, so every schedule gives the sequential result; induction on the tree |
| C37 | dispatch loops of multi_core_*.c as lists of pthread_create/pthread_join calls over arbitrary per-instance code (Disp_Model.v), with an interleaving semantics of the thread array | invariant over all executions: independent instances commute, so the outcome is that of one instance after the other; induction on rounds and chunks |
| C38, C54 | combination of the two streams, per-action distributions/quantiles, Q functions, their backward passes and the categorical losses of dueling_categorical_dqn.c (Duel_Model.v); the outputs of the sub-networks are arguments | sums and partial derivatives over R; the advantage backward pass (categorical) is refuted, the plain and the sharing loss differ |
| C39 | support, clipping and projection, written over a record of arithmetic operations (Duel_Model.v) | over R: whole part and the two shares of each atom; over IEEE binary32 (Coq.Floats.SpecFloat, round to nearest even, no contraction, FLT_EVAL_METHOD 0): an out-of-bounds write for 62 atoms on [-1,1], by computation |
| C55 | quantile losses (Qr_Model.v) | derivative of the quantile Huber loss at every point, ties and kinks included; the plain variant reads the next action's row |
| C40, C56 | noise.c over reals and binary32 (Ou_Model.v), noises as an oracle; random_normal from rand() over reals | per-call equations, induction over histories of calls; the tests are correct for any irreflexive comparison; NaN by cases on SpecFloat; a contraction bounds the state |
| C41 | save_*/load_* of all layers, networks, transformers, dueling networks, autoencoders, EfficientZero models and vectors, with the constructors and their checks (Save_Model.v, Save2_Model.v): a file is a list of 4-byte words on a little-endian host, floats are bit patterns. Left out: optimizer moments, running statistics and the mode of batch normalization (not saved), int overflow of sizes, I/O errors; copy_model is the identity in the loaders of decoders and autoencoders | saving any object a constructor and training can give appends bytes; loading them gives the object back and stops where they end, by composition over the parts; the fields and configurations for which this is false are refuted |
| C42 | slow_paste_* of all layers and networks (Soft_Model.v) over a memory of arrays indexed by layer address; gradients and optimizer buffers may be NULL; used_kernels, active_output_neurons and the flags copied by transformers are left out | every layer realizes a plan saying which entries are mixed with what; pairs of disjoint layers compose; histories by induction, convergence of powers |
| C43 | mcts.c: visit_node, get_mcts_probability, get_mcts_v (Mcts_Model.v) over a record of arithmetic operations; network outputs, Dirichlet samples and r2() are arbitrary per visit. Left out: states, hidden states, v_pow | tree invariant and exact counts for any arithmetic (floats with NaN included) by induction on the recursion and on histories; bounds, choice at the root and policy over exact reals |
| C44 | mutations.c and the parts of neat_utils.c it uses: init_genome, copy_genome, free_genome, get_connections, init_global_params (Neat_Model.v); pointers to nodes are indices, connections are shared through indices into one store per genome, weights are an arbitrary type, every random choice is an argument of the call. Left out: activation values, fitness and species fields, overflow of int counters, failing malloc | invariant (consistent tables, well-formed genomes) preserved by every call, induction over histories; effects of the calls stated on node numbers and genes; undefined bias flags and cycles refuted |
| C45-C47 | mat_mul, L2, dropout | index induction |
| C48 | parser.c:28-292, the readers of CSV and character files (Parse_Model.v); a file is its characters or missing, atof is an arbitrary function, the 256 characters of the buffer and the ends of the arrays are bounds whose violation is None | invariant of the reading loop over the prefix of a row, induction on rows and files; refutations for unterminated, too long and too many numbers, final newlines and lines of labelled examples |
| C57 | parser.c:302-1192, the parsers of model descriptions (Desc_Model.v): the character loop with its 256-character and 256-float buffers, whose cells keep old values, and the loop that groups residual layers; constructors of layers, atof and float-to-int conversions are arbitrary. Left out: network(), residual(), parse_model_without_arrays_str (which handles failing constructors) | invariant over the layers read so far, induction on parts and blocks; refutations for short parameter lines, the documented first line and a missing last newline |
| C58 | speciation.c:27-145 compute_species_distance (Species_Model.v) on the genomes of C44 with weights in R | presence arrays and counters against counts over the sets of connection numbers (Species_Spec.v); congruence under copies; refutations by a population of two genomes |
| C59 | neat.c init and neat_generation_run, speciation.c species, fitness.c (Species_Model.v, Gen_Model.v). Fitness and rates over R; outcomes of the tests against rates are arguments, as are all random numbers. Left out: the files written, the adaptive rates (they only change which random outcomes are likely), float-to-int conversions of values that do not fit, int overflow, failing malloc, memory freed | invariant between two calls (tables consistent, genomes well formed, room in the arrays, species well placed) preserved by init and every generation; exact number of children per species; sort_genomes_by_fitness on fractions is reversal; the counters of species shown irrelevant by a relation between two runs |
| C60 | aco_process.c init_aco, walks and models, aco_building.c, aco_iterate.c trackers (Aco_Model.v); the calls that change pheromones and candidates are in Aco2_Model.v. Any arithmetic; roulette over R. Left out: files, freeing, nodes of other kinds than init_aco makes, int overflow | the graph is a chain of complete bipartite rows (invariant of the construction and of the depth-first collection); every call keeps the skeleton; a trail picks one node of each row, and the network is read off the picks; get_best_model refuted |
| C61 | aco_process.c pheromone updates, bounds, best trail, stagnation and refreshing (Aco2_Model.v, functions as called from any reached state of C60). Over R, no rounding; node 0 is the root | a trail has different edges and nodes, so the walk along it touches each once; each update is then a map over the pheromones; positive pheromones are an invariant of the calls a program may make, and rounds follow by induction. Refuted: the credit index number_of_ants, a period of 0, the upper bound in update_pheromones_best, marks left by the subnodes update, the lower bound for narrow spaces |
| C62 | aco_process.c 447-455, 677-756, 777-809 (Aco2_Model.v), called from any reached state of C60. Over R, no rounding; r2() is an oracle per node; the velocity bounds v_max, inertia, c1 and c2 are arguments of the step (their schedule, 1109-1150, is not modelled) | the nested loops over layers, weights and candidates are one loop over the disjoint rows of candidates; a step writes only its own place and velocity and reads what the step does not write, so the loop is a simultaneous update; which fields each of the 26 calls may change is one relational lemma. Refuted: a step before the leaders are set follows a null pointer; set_best_global_node_fitness_pso counts 4*depth-3 weights, so it overruns or skips unless a layer has exactly that many. Partial: the claim that rounds never fail holds for the variant by nodes only |
| C63 | feedforward.c, all of it (Ff_Model.v), on the genomes of C44's histories (Neat_Spec.v); modified_sigmoid is an arbitrary function; termination and memory safety for any arithmetic, values over R, no rounding; the recursions have fuel, and a result with some fuel is shown to be the result with more | the lists built by the first walk are exactly the simple backward paths from the outputs; the second walk ends because every call that recurses uses up a pending connection or moves along a simple path of unmarked nodes (a lexicographic measure). Values: on tree-shaped genomes every node has one distance from the outputs; an invariant of the two walks says that a value is the sum over the connections already counted, and that a connection is counted only after all that enter its origin. The network equations (Ff_Spec.v) are stated with node and connection numbers only. Refuted, for all weights and inputs: a skip connection, a layer with two outputs, a hidden node without inputs |
| C64 | Gsave_Model.v: a file or array is a list of words (int or float); the writers and the three readers of neat_utils.c, with the table of connections by number, the search of the end nodes (first match in files, last match in arrays) and the lists of the nodes, whose sizes come from the file; the population format of neat.c with the genomes laid end to end; the byte conversion is an arbitrary self-inverse function | reading is replayed on what writing produced: the connections come back as a permutation of those of the genome, the lists hold the positions of the right connections in order of number, and a counting argument shows they fill the announced sizes exactly. Refuted: arrays when the conversion is not the identity (one size is written unconverted), saving a genome of a population by index (inverted check), and evaluating to the same outputs in general (the order of the outgoing connections changes, and the evaluation depends on it; proved for tree-shaped genomes) |
| C65 | Flat_Model.v: a memory gives the contents of each array of each layer, or NULL; a layer makes a list of copies (array, place, number), written separately for the two directions; the loops over layers, residual layers, models, the dueling network and efficientzero add up the announced sizes; a copy through NULL or outside an array or the vector is undefined | the copies of a layer are shown to be its arrays laid end to end (Flat_Spec.v, layout), for every combination of flags; a property of copies that composes is lifted once from layers to every network, and is used for writing, for reading and for NULL arrays; int overflow of sizes and the functions that alias the vector instead of copying are not modelled. Refuted: scores after set_model_training_edge_popup, derivatives after set_model_training_gd, scores of a recurrent part without edge-popup (all dereference NULL) |
| C66 | Scr_Model.v: the memory of Flat_Model.v; one function for the loops over two inputs and an output and one for the loops over one array, with the guards of each layer function; the loops over the layers of models; NULL and out-of-bounds are undefined; the random values, the float-to-int conversions and the subtraction of epsilon are oracles | a model's three loops are shown to be one loop over its layers; one step gives the place-by-place result and a frame, and induction over the layers keeps both (the output may be an input); averaging by induction over the models. Refuted: comparison loses a valid first score when the second is NaN or too large; comparing dense layers with a vector does nothing; averaging adds the old scores of the output; dividing dereferences NULL for layers without scores; re-initialising by goodness starts at the best weight; the convolutional versions go out of bounds |
| C67 | Rain_Model.v: the reward sampling loop of train_rainbow with the recursive weighted sample over the use counters, the ranked importance weights, and the groups of the td-error computation; the two random draws per entry are inputs; exact reals, C pow(0,0) = 1. The states of the buffer are those reached by histories (Rewards_Model.v, Replay_Model.v) | invariant of the batch loop: the parts of the three classes are disjoint, without repetition, made of members, and each remaining sum is the free weight of its class; the recursive sample is shown to return the free element whose interval holds the draw; the class by comparing intervals. Closed form of the weights; induction over the groups. Refuted: beta = 0 reads out of bounds; importance weights use the slot number as rank; the second and later groups use the discounts of the first |
| C68 | Cyc_Model.v: struct_handler and there_are_no_cycles on a list of handlers (pointers are indices; only counts, lists, mark and depth are modelled; fuel is the depth of the recursion). Cyc_Spec.v has edges, reachability, directed cycles and graded graphs. Proved: the check ends on every well-formed fresh graph with a recursion no deeper than the number of handlers; what acceptance implies (depths that never decrease along edges, with a spanning set of edges that lead one level down); cycles whose edges are needed to connect the graph are reported, in particular rings; graded graphs are accepted. The full property is false: an acyclic graph is reported, two cyclic ones are accepted, a second check reports an accepted graph, and the constructor never stores the number of outputs, so a handler it made cannot be checked. |
| C69 | Work_Model.v: the three functions as loops over the characters of the file with their buffers (package_size and 1024 characters; an access outside is None), and a two-step (read whole file, then write whole file) system of several clients. A missing file is not modelled. Work_Spec.v: entries, their encoding as lines, and the histories of calls by one client at a time. Proved: what each call does to every list of names that fit, an invariant over all histories (no name held twice, marks are exactly the held names, NULL iff all held), overflow for long names, undefined behaviour for empty lines, unterminated last lines are never handed out, after a crash (any prefix of the new file) only free complete names are handed out. Refuted: names survive crashes, and concurrent clients (same name twice; a name given back stays marked). |
| C70 | A step over networks as parameters, partial derivatives, last input and output buffer; what forward, backward, loss, update and soft copy compute are universally quantified functions with size laws. Proved: the step equals a declarative one-step specification, the copies are in sync and derivatives zero again after every step (invariant, histories of any length). Refuted, with quantified wrong behaviour: the bootstrapped value is read after the reset, so the future is not in the targets; the time steps are 1-2n mod 2^64 and constantly 1; the hyper parameters are swapped; one feature for state or action overflows a buffer. |
| C71 | train_iqn with the networks as parameters (forward, backward, clip, update), threads as groups with private derivatives; proved equal to a specification without groups and buffers and independent of the number of threads; each transition once per epoch; the derivative proved to be the exact gradient of the loss with both soft values divided by the number of actions; refuted: the documented loss (the computed derivative of an action not taken is 1/n of it), and that an update uses its own batch only (the derivatives are never cleared: the n-th update of an unmoving network gets n batches). |
| C72 | the two passes over buffers with encoder and decoder as functions; the error given to the encoder proved entry by entry and proved to be the exact gradient of 2 loss + sum (mean^2 + std^2 - ln |std|); refuted: no weighted sum of loss and divergence has this gradient (the encoder rests at variance 1/2), free_vae_model(NULL) is undefined, and freeing leaks the latent vector (a missing semicolon). |
| C73 | Pe_Model: positional_encoding.c over the reals, the power as a natural power; Pe_Spec: the documented encoding with Rpower, product of two vectors; proved with Lipschitz bounds of sin and cos and the addition theorem. |
| C74 | Pe_Model: initialization.c over the reals with the results of rand() as arguments; the bounds are proved for all results. |
| C75 | Pg_Model: sampling with the merge sort on truncated values, the error function, the passage and get_policies with network passes as parameters; Pg_Spec: policy, entropy, distance, drawn. Gradient by the chain rule through the softmax; sampling by showing that the sort does nothing on probabilities (all truncate to 0). |
| C76 | Fn_Model: the loops over exact reals with normal values and rand() as oracles. Proved by loop invariants (outer product; the two runs with different concentrations kept proportional); refutations for every size by an explicit sequence of draws. Partial: the Dirichlet, decoding and std parts are false, and only their true parts are proved. |
| C77 | Life_Model: the structures as maps from field names to optional arrays, the operations as lists of guarded copies and fills over them, new noise by Fn_Model and the ranking by Sort_Model. Proved by general lemmas on lists of copies and fills and a case analysis on the fields. Partial: the failing parts are refuted for every layer in the stated situation; the *_without_learning_parameters variants, reset_fcl_for_edge_popup and sharing or freeing of memory are not modelled. |
| C78 | Model: the matrix of comparison values, the swap loops, the walk over the layers, the sums, deviations, per-layer sort, the scores by rank and the copies to the other networks, over the reals, with erf an arbitrary odd, strictly increasing function into (-1,1). The layer sizes of the network are a list; the function that walks them is modelled on that list. Proof: loop invariants for the permutation, induction over the chain of layers for the ranking, computation of the swaps for two and three values. |
| C79 | Model: the search loops over the three kinds of layers, the scaling loops and their guards, with the scores of a layer an optional array (None is NULL) and a division by zero an error. Proof: the search is a fold over all scores (loop invariant, induction over layers), the fold yields the extremes when the scores lie between the initial values, the scaling loop is a map. |
| C80 | Model: the loop of multi_head_attention_bp that fills the temporary array, with copy_array and the reshape of the forward pass from Attn_Model. Proof: invariant over the double loop, injectivity of the two layouts; the overrun by following the lengths, the overlap by an invariant on one entry. |
| C49 | further array utilities | index induction |
| C50 | update.c dispatch: one optimizer step per parameter | per-layer equality with the optimizer step of C33; refutations by witness |
| C51 | vector.c | per-configuration equations, gradients by `derivable_pt_lim`, refutations |
| C52 | dense networks of model.c (ff/bp loops, losses) | reverse-mode adjoints along curves, induction on the depth |
| C53 | adaptive clipping of clipping_gradient.c | disjoint units visited once each; the ratio is inverted: refuted for every network |

## Trusted base

* The Coq 8.16.1 kernel (and `coqc`/`coqchk` as built in the sandbox).
* The axioms reported by `Print Assumptions`, listed per theorem in
  `ASSUMPTIONS.md`.  All belong to Coq's standard library:
  `ClassicalDedekindReals.sig_forall_dec`, `ClassicalDedekindReals.sig_not_dec`,
  `FunctionalExtensionality.functional_extensionality_dep` (the three under the
  standard real numbers), and `Classical_Prop.classic` (where a proof uses
  Coquelicot's derivative lemmas).  The sealed module fields
  `Rdefinitions.RbaseSymbolsImpl.*`, `Rdefinitions.RinvImpl.*` and
  `ssrunder.Under_rel.*` of the standard library are opaque definitions, not
  axioms added here.  No axiom, `Admitted`, functor or module type is defined in
  this development.
* The reading of the C code in the `*_Model*.v` files.  Every definition cites
  the file and lines it stands for and states what it simplifies.  Nothing in
  the kernel checks this correspondence.

## What is modelled and what is not

`COVERAGE.md` lists, for every file of /repo/src, the functions that the model
covers and those it does not.  Outside the model altogether: floating-point
rounding and overflow (numeric kernels are over R), memory allocation and
freeing, operating-system calls (files are token lists, sockets and locks are
absent), and the actual values of `rand()` (an arbitrary sequence).  Threads are
modelled only in the gradient reduction (C36) and the dispatch of mini-batches (C37), at the granularity of one read or
write of one gradient, sequentially consistent; pthread_create and
pthread_join are assumed to succeed.
