(** Model of the mini-batch dispatch functions src/multi_core_model.c, multi_core_rmodel.c, multi_core_vae_model.c, multi_core_neat.c
    and multi_core_dueling_categorical_dqn.c: which thread gets which instance, when it is created and when it is joined.

    The work on one instance is any code that reads and writes memory cells and ends with a result (L: cells, V: their values); the
    dispatch functions do not look inside it.  The main thread is the list of its pthread_create and pthread_join calls: the control
    flow of the dispatch functions does not depend on what the threads do. *)
From Verif Require Import Base.
Open Scope nat_scope.

Section code.
Context {L V : Type} `{EqDecision L}.
(** the code of one thread *)
Inductive code :=
  | Ret (v : V)
  | Get (l : L) (k : V -> code)
  | Set_ (l : L) (v : V) (k : code).
(** c; then k applied to its result *)
Fixpoint andthen (c : code) (k : V -> code) : code :=
  match c with Ret v => k v | Get l f => Get l (fun v => andthen (f v) k) | Set_ l v c => Set_ l v (andthen c k) end.

Definition mem := L -> V.
Definition upd (h : mem) (l : L) (v : V) : mem := fun x => if decide (x = l) then v else h x.

(** calls of the main thread: pthread_create(thread+j, ..., c) and pthread_join(thread[j]) (after which, in the functions that return a
    sum, the result of the thread is added to it).  k is a label for statements only: the number of the instance *)
Inductive call := Create (j k : nat) (c : code) | Join (j : nat).

(** calls still to make; the array thread[]: None: no thread; the memory; the returned sum *)
Record state := St { todo : list call; pool : list (option (nat * code)); memory : mem; total : V }.

Section step.
Context (add : V -> V -> V).
Inductive step : state -> state -> Prop :=
  | step_create j k c r p h s : p !! j = Some None -> step (St (Create j k c :: r) p h s) (St r (<[j := Some (k, c)]> p) h s)
  | step_join j k v r p h s : p !! j = Some (Some (k, Ret v)) -> step (St (Join j :: r) p h s) (St r (<[j := None]> p) h (add s v))
  | step_get j k l f r p h s : p !! j = Some (Some (k, Get l f)) -> step (St r p h s) (St r (<[j := Some (k, f (h l))]> p) h s)
  | step_set j k l v c r p h s : p !! j = Some (Some (k, Set_ l v c)) -> step (St r p h s) (St r (<[j := Some (k, c)]> p) (upd h l v) s).
End step.
Definition start (threads : nat) (p : list call) (h : mem) (zero : V) : state := St p (replicate threads None) h zero.

(** ** The loop of the *_multicore functions
    for(i = 0; i < mini_batch_size; i+=threads){
        for(j = 0; j < threads && j+i < mini_batch_size; j++) { ...args of instance i+j...; pthread_create(thread+j, ...) }
        for(j = 0; j < threads && j+i < mini_batch_size; j++) pthread_join(thread[j]);
    } *)
Section batch.
Context (n threads : nat) (item : nat -> option code).
(** first inner loop, from j; stop = number of iterations at most *)
Fixpoint creates (stop i j : nat) : option (list call) :=
  match stop with
  | 0 => Some []
  | S stop => if decide (j < threads /\ j + i < n) then c ← item (i + j); r ← creates stop i (S j); Some (Create j (i + j) c :: r) else Some []
  end.
(** second inner loop *)
Fixpoint joins (stop i j : nat) : list call :=
  match stop with
  | 0 => []
  | S stop => if decide (j < threads /\ j + i < n) then Join j :: joins stop i (S j) else []
  end.
(** outer loop; with threads = 0 it does not end: None *)
Fixpoint rounds (fuel i : nat) : option (list call) :=
  if decide (i < n) then
    match fuel with
    | 0 => None
    | S fuel => cs ← creates threads i 0; r ← rounds fuel (i + threads); Some (cs ++ joins threads i 0 ++ r)
    end
  else Some [].
Definition batch_loop : option (list call) := rounds n 0.
End batch.

(** multi_core_model.c:131-155 model_tensor_input_ff_multicore, multi_core_vae_model.c:60-85 vae_model_tensor_input_ff_multicore.
    job: what the thread does with its model and input (also for 171-197 ..._opt, where it reads the shared model m2) *)
Definition ff_multicore {M I} (job : M -> I -> code) (m : list M) (inputs : list I) (n threads : nat) : option (list call) :=
  batch_loop n threads (fun k => x ← rd m k; y ← rd inputs k; Some (job x y)).
(** multi_core_model.c:250-280 model_tensor_input_bp_multicore, 292-324 ..._opt, 336-366 ff_error_bp_model_multicore, 379-410 ..._opt,
    multi_core_vae_model.c:104-132 vae_model_tensor_input_bp_multicore.  The last argument is &returning_error[i+j] (or NULL) *)
Definition bp_multicore {M I E P} (job : M -> I -> E -> option P -> code) (m : list M) (inputs : list I) (errors : list E) (returning : option (list P)) (n threads : nat) : option (list call) :=
  batch_loop n threads (fun k => x ← rd m k; y ← rd inputs k; e ← rd errors k;
    match returning with None => Some (job x y e None) | Some ps => p ← rd ps k; Some (job x y e (Some p)) end).
(** multi_core_rmodel.c:77-100 ff_rmodel_lstm_multicore, 115-139 ..._opt *)
Definition ff_rmodel_multicore {M S I} (job : M -> S -> S -> I -> code) (m : list M) (hidden cell : list S) (inputs : list I) (n threads : nat) : option (list call) :=
  batch_loop n threads (fun k => x ← rd m k; a ← rd hidden k; b ← rd cell k; y ← rd inputs k; Some (job x a b y)).
(** multi_core_rmodel.c:157-186 bp_rmodel_lstm_multicore, 203-233 ..._opt *)
Definition bp_rmodel_multicore {M S I E P Q} (job : M -> S -> S -> I -> E -> P -> option Q -> code) (m : list M) (hidden cell : list S) (inputs : list I) (errors : list E) (returning : list P)
  (returning_input : option (list Q)) (n threads : nat) : option (list call) :=
  batch_loop n threads (fun k => x ← rd m k; a ← rd hidden k; b ← rd cell k; y ← rd inputs k; e ← rd errors k; p ← rd returning k;
    match returning_input with None => Some (job x a b y e p None) | Some qs => q ← rd qs k; Some (job x a b y e p (Some q)) end).

(** ** The loss of a whole batch *)
Section loss.
Context (add : V -> V -> V) (zero : V).
(** multi_core_model.c:52-70 model_thread_ff_loss_reset_only_for_ff_opt: error += loss of instance i, size times, from `first` *)
Fixpoint loss_thread {M I O} (job : M -> I -> O -> code) (m : M) (inputs : list I) (outputs : list O) (first size : nat) (error : V) : option code :=
  match size with
  | 0 => Some (Ret error)
  | S size =>
    x ← rd inputs first; y ← rd outputs first;
    (* the rest of the loop exists whatever the loss of this instance is *)
    _ ← loss_thread job m inputs outputs (S first) size error;
    Some (andthen (job m x y) (fun v => default (Ret error) (loss_thread job m inputs outputs (S first) size (add error v))))
  end.
(** multi_core_model.c:199-232 model_tensor_input_ff_multicore_only_for_ff_loss_reset_opt: the thread count used and the calls made *)
Definition loss_multicore {M I O} (job : M -> I -> O -> code) (m : list M) (inputs : list I) (outputs : list O) (n threads : nat) : option (nat * list call) :=
  let threads := if decide (n < threads) then n else threads in
  if decide (threads = 0) then None (* division by zero *) else
  let value := n / threads in
  cs ← mapM (fun j => x ← rd m j;
               let size := if decide (n - j * value < value) then n - j * value else value in
               c ← loss_thread job x inputs outputs (j * value) size zero; Some (Create j j c)) (seq 0 threads);
  Some (threads, cs ++ map Join (seq 0 threads)).
End loss.

(** ** Genomes *)
(** multi_core_neat.c:35-50 genome_thread_ff_opt: output[index+i] = feed_forward(g[i], input[i]) for i < number, from `first`.
    job g x k: runs feed_forward and stores the result at output[k] *)
Fixpoint genome_thread {G I} (zero : V) (job : G -> I -> nat -> code) (g : list G) (inputs : list I) (first number : nat) : option code :=
  match number with
  | 0 => Some (Ret zero)
  | S number => x ← rd g first; y ← rd inputs first; c ← genome_thread zero job g inputs (S first) number; Some (andthen (job x y first) (fun _ => c))
  end.
(** multi_core_neat.c:75-110 feed_forward_multi_thread_opt; None: NULL returned, no thread started *)
Definition genomes {G I} (zero : V) (job : G -> I -> nat -> code) (g : list G) (inputs : list I) (n threads : nat) : option (option (nat * list call)) :=
  if decide (threads = 0 \/ n = 0) then Some None else
  let threads := if decide (n < threads) then n else threads in
  let assigned := n / threads in
  cs ← mapM (fun i => let number := if decide (i = threads - 1) then n - i * assigned else assigned in
               c ← genome_thread zero job g inputs (i * assigned) number; Some (Create i i c)) (seq 0 threads);
  Some (Some (threads, cs ++ map Join (seq 0 threads))).
(** multi_core_neat.c:112-168 feed_forward_multi_thread_opt_with_indices: the genomes and inputs with a nonzero index, in order, are
    first copied to real_g and real_inputs *)
Fixpoint selected {G} (indices : list Z) (g : list G) (n i : nat) : option (list G) :=
  match n with
  | 0 => Some []
  | S n => b ← rd indices i; if decide (b <> 0%Z) then x ← rd g i; r ← selected indices g n (S i); Some (x :: r) else selected indices g n (S i)
  end.
Definition genomes_with_indices {G I} (zero : V) (job : G -> I -> nat -> code) (g : list G) (inputs : list I) (indices : list Z) (n threads : nat) : option (option (nat * list call)) :=
  if decide (threads = 0 \/ n = 0) then Some None else
  let threads := if decide (n < threads) then n else threads in
  real_g ← selected indices g n 0; real_inputs ← selected indices inputs n 0;
  if decide (length real_g = 0) then Some None else genomes zero job real_g real_inputs (length real_g) threads.

(** ** Batches of dueling networks
    multi_core_dueling_categorical_dqn.c:174-209 dueling_categorical_dqn_train_l1, 212-247 ..._l_infinite: the instance (index in states_t
    and q_functions) and the network copy (index in online_net_wlp) of each job, round by round.  The gradient sums and resets between
    the rounds are not modelled *)
Fixpoint dqn_rounds (fuel batch_size threads i : nat) : option (list (list (nat * nat))) :=
  if decide (i < batch_size) then
    match fuel with
    | 0 => None
    | S fuel => let min := if decide (batch_size - i < threads) then batch_size - i else threads in
                r ← dqn_rounds fuel batch_size threads (i + min); Some (map (fun j => (j, j)) (seq 0 min) :: r)
    end
  else Some [].
End code.

(** ** Results of threads kept in block variables *)
(** what the main thread does to objects of automatic storage: entering and leaving the block that declares object j, reading it
    through a pointer.  A read outside the lifetime is undefined behaviour: None *)
Inductive event := Enter (j : nat) | Leave (j : nat) | Load (j : nat).
Fixpoint check (es : list event) (alive : list nat) : option unit :=
  match es with
  | [] => Some ()
  | Enter j :: es => check es (j :: alive)
  | Leave j :: es => check es (filter (fun x => x <> j) alive)
  | Load j :: es => if decide (j ∈ alive) then check es alive else None
  end.
(** multi_core_dueling_categorical_dqn.c:143-171 dueling_categorical_dqn_train_kl, and each round of 174-209 and 212-247: `float error` is
    declared inside the creating loop, its address goes to args[j]->ret, and args[j]->ret[0] is read in the joining loop *)
Definition results_in_block (threads : nat) : list event := concat (map (fun j => [Enter j; Leave j]) (seq 0 threads)) ++ map Load (seq 0 threads).

Arguments code : clear implicits.
Arguments call : clear implicits.
Arguments mem : clear implicits.
Arguments state : clear implicits.
