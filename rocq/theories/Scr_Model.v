(** Model of the operations on edge-popup scores: src/fully_connected_layers.c:2389-2653,
    convolutional_layers.c:2932-3195, residual_layers.c:926-1129, model.c:9577-9605, 9683-9895,
    dueling_categorical_dqn.c:1170-1300.

    The memory of Flat_Model.v: the array [Val Scores] of a layer holds its scores, [Val Weights] and
    [Val (Kernel i)] its weights; the indices are in a second memory, of ints.  NULL dereferences and
    accesses outside of arrays are [None].  An elementwise loop is computed from the arrays as they
    are before it, which is the same when the output is one of the inputs, because step i only reads
    the elements i.  Simplifications: no layer is NULL, sizes are natural numbers. *)
From Verif Require Import Base Flat_Model.
Open Scope nat_scope.

Section scores.
  Context {F : Type}.
  (** float operations: [lt a b] is a < b; [real] is bool_is_real, utils.c:527-531, not NaN; [top] is
      MAXIMUM_SCORE, llab.h:237 *)
  Variable add div : F -> F -> F.
  Variable lt : F -> F -> bool.
  Variable real : F -> bool.
  Variable top zero low : F.

  (** ** One layer *)

  (** the loops "for(i = 0; i < n; i++) output[i] = g(input1[i],input2[i],output[i])": the arrays
      must be there when n is not 0 *)
  Definition loop2 (g : F -> F -> F -> F) (n : nat) (a b : option (list F)) (o : nat) (h : mem F)
    : option (mem F) :=
    match n, a, b, h o (Val Scores) with
    | 0, _, _, _ => Some h
    | _, Some a, Some b, Some l =>
      if decide (n <= length a /\ n <= length b /\ n <= length l)
      then Some (upd h o (Val Scores)
                   (zip_with (fun p z => g (fst p) (snd p) z) (zip (take n a) (take n b)) (take n l) ++
                    drop n l))
      else None
    | _, _, _, _ => None
    end.

  (** fully_connected_layers.c:2420-2430 sum_score_fcl, 2439-2455 compare_score_fcl: the guards are
      the same *)
  Definition op2_fcl (g : F -> F -> F -> F) (a b o : fcl) (h : mem F) : option (mem F) :=
    if negb (exists_edge_popup_stuff_fcl a) || negb (exists_edge_popup_stuff_fcl o) ||
       negb (exists_edge_popup_stuff_fcl b)
    then Some h
    else if decide (f_in a * f_out a <> f_in b * f_out b \/ f_in a * f_out a <> f_in o * f_out o)
    then Some h
    else loop2 g (f_in a * f_out a) (h (f_at a) (Val Scores)) (h (f_at b) (Val Scores)) (f_at o) h.

  (** convolutional_layers.c: n_kernels*channels*kernel_rows*kernel_cols *)
  Definition nsc (c : cl) : nat := c_n c * ksize c.

  (** convolutional_layers.c:2967-2975 sum_score_cl, 2985-3000 compare_score_cl *)
  Definition op2_cl (g : F -> F -> F -> F) (a b o : cl) (h : mem F) : option (mem F) :=
    if negb (exists_edge_popup_stuff_cl a) || negb (exists_edge_popup_stuff_cl b) ||
       negb (exists_edge_popup_stuff_cl o)
    then Some h
    else if decide (nsc a <> nsc b \/ nsc a <> nsc o)
    then Some h
    else loop2 g (nsc a) (h (c_at a) (Val Scores)) (h (c_at b) (Val Scores)) (c_at o) h.

  (** fully_connected_layers.c:2448-2453, convolutional_layers.c:2994-2999, the body of the loops of
      compare_score *)
  Definition compare_score (a b old : F) : F :=
    if lt b a && real a && lt a top then a
    else if real b && lt b top then b
    else old.
  (** sum1D, math_functions.c:859-864 *)
  Definition sum_score (a b old : F) : F := add a b.

  (** fully_connected_layers.c:2456-2474 compare_score_fcl_with_vector: the guard
      "in_out != in_out != output->input*output->output" compares 0 with the size of the output *)
  Definition compare_score_fcl_with_vector (a : fcl) (v : list F) (o : fcl) (h : mem F)
    : option (mem F) :=
    if negb (exists_edge_popup_stuff_fcl a) || negb (exists_edge_popup_stuff_fcl o) then Some h
    else if decide (0 <> f_in o * f_out o) then Some h
    else loop2 compare_score (f_in a * f_out a) (h (f_at a) (Val Scores)) (Some v) (f_at o) h.

  (** convolutional_layers.c:3009-3025 compare_score_cl_with_vector *)
  Definition compare_score_cl_with_vector (a : cl) (v : list F) (o : cl) (h : mem F)
    : option (mem F) :=
    if negb (exists_edge_popup_stuff_cl a) || negb (exists_edge_popup_stuff_cl o) then Some h
    else if decide (nsc a <> nsc o) then Some h
    else loop2 compare_score (nsc a) (h (c_at a) (Val Scores)) (Some v) (c_at o) h.

  (** model.c:9733-9752 compare_score_model_with_vector, residual_layers.c:1007-1017
      compare_score_rl_with_vector: the loops with the place in the vector, which moves by the sizes
      of the layers of the first model *)
  Fixpoint along {L} (size : L -> nat) (f : L -> list F -> L -> mem F -> option (mem F))
      (la lo : list L) (v : list F) (h : mem F) : option (list F * mem F) :=
    match la, lo with
    | [], _ => Some (v, h)
    | a :: la, o :: lo => h' ← f a v o h; along size f la lo (drop (size a) v) h'
    | _ :: _, [] => None
    end.
  Definition compare_score_model_with_vector (a : model) (v : list F) (o : model) (h : mem F)
    : option (mem F) :=
    '(v, h) ← along (size_fcl ScoresOf) compare_score_fcl_with_vector (m_fcls a) (m_fcls o) v h;
    '(v, h) ← along (size_cl ScoresOf) compare_score_cl_with_vector (m_cls a) (m_cls o) v h;
    snd <$> along (size_rl ScoresOf)
      (fun ra v ro h => snd <$> along (size_cl ScoresOf) compare_score_cl_with_vector
                                  (r_cls ra) (r_cls ro) v h) (m_rls a) (m_rls o) v h.

  (** the loops "for(i = 0; i < n; i++) scores[i] = g(scores[i])" *)
  Definition loop1 (g : F -> F) (n : nat) (a : nat) (s : slot) (h : mem F) : option (mem F) :=
    match n, h a s with
    | 0, _ => Some h
    | _, None => None
    | _, Some l => if decide (n <= length l) then Some (upd h a s ((g <$> take n l) ++ drop n l))
                   else None
    end.

  (** fully_connected_layers.c:2480-2485 dividing_score_fcl, convolutional_layers.c:3034-3039
      dividing_score_cl: no guard *)
  Definition dividing_score_fcl (x : F) (f : fcl) (h : mem F) : option (mem F) :=
    loop1 (fun s => div s x) (f_in f * f_out f) (f_at f) (Val Scores) h.
  Definition dividing_score_cl (x : F) (c : cl) (h : mem F) : option (mem F) :=
    loop1 (fun s => div s x) (nsc c) (c_at c) (Val Scores) h.

  (** fully_connected_layers.c:2516-2526 reset_score_fcl ([x] is 0), 2644-2654 set_low_score_fcl
      ([x] is -99999) *)
  Definition fill_score_fcl (x : F) (f : fcl) (h : mem F) : option (mem F) :=
    match h (f_at f) (Val Scores) with
    | None => Some h
    | Some _ => if decide (f_ff f = OnlyDropout) then Some h
                else loop1 (fun _ => x) (f_in f * f_out f) (f_at f) (Val Scores) h
    end.

  (** convolutional_layers.c:3049-3058 reset_score_cl, 3179-3183 set_low_score_cl *)
  Definition fill_score_cl (x : F) (c : cl) (h : mem F) : option (mem F) :=
    if c_conv c then
      match h (c_at c) (Val Scores) with
      | None => Some h
      | Some _ => loop1 (fun _ => x) (nsc c) (c_at c) (Val Scores) h
      end
    else Some h.

  (** ** Models *)

  (** the loops over the layers of three models: as many steps as the first has layers *)
  Fixpoint each3 {L S} (f : L -> L -> L -> S -> option S) (la lb lo : list L) (s : S) : option S :=
    match la, lb, lo with
    | [], _, _ => Some s
    | a :: la, b :: lb, o :: lo => s' ← f a b o s; each3 f la lb lo s'
    | _, _, _ => None
    end.
  Fixpoint each1 {L S} (f : L -> S -> option S) (l : list L) (s : S) : option S :=
    match l with [] => Some s | x :: l => s' ← f x s; each1 f l s' end.

  (** model.c:9683-9696 sum_score_model, 9708-9721 compare_score_model; residual_layers.c:970-978
      sum_score_rl, 988-996 compare_score_rl *)
  Definition op2_model (g : F -> F -> F -> F) (a b o : model) (h : mem F) : option (mem F) :=
    h ← each3 (op2_fcl g) (m_fcls a) (m_fcls b) (m_fcls o) h;
    h ← each3 (op2_cl g) (m_cls a) (m_cls b) (m_cls o) h;
    each3 (fun ra rb ro => each3 (op2_cl g) (r_cls ra) (r_cls rb) (r_cls ro))
      (m_rls a) (m_rls b) (m_rls o) h.
  Definition sum_score_model := op2_model sum_score.
  Definition compare_score_model := op2_model compare_score.

  (** model.c:9762-9775 dividing_score_model, 9803-9816 reset_score_model, 9918-9931
      set_low_score_model; residual_layers.c:1026-1033, 1042-1049, 1122-1129: the same three loops *)
  Definition op1_model (f : fcl -> mem F -> option (mem F)) (c : cl -> mem F -> option (mem F))
      (m : model) (h : mem F) : option (mem F) :=
    h ← each1 f (m_fcls m) h;
    h ← each1 c (m_cls m) h;
    each1 (fun r => each1 c (r_cls r)) (m_rls m) h.
  Definition dividing_score_model (x : F) := op1_model (dividing_score_fcl x) (dividing_score_cl x).
  Definition reset_score_model := op1_model (fill_score_fcl zero) (fill_score_cl zero).
  Definition set_low_score_model := op1_model (fill_score_fcl low) (fill_score_cl low).

  (** model.c:9786-9794 avaraging_score_model; [x] is n_model as a float *)
  Definition avaraging_score_model (x : F) (o : model) (ms : list model) (h : mem F)
    : option (mem F) :=
    h ← each1 (fun m h => sum_score_model o m o h) ms h;
    dividing_score_model x o h.

  (** ** Reinitialising weights *)

  (** the memory of the indices *)
  Variable ix : nat -> option (list nat).
  (** signed_kaiming_constant, one value for each call *)
  Variable kaiming : nat -> F.
  (** (int)(n*x) *)
  Variable part : nat -> F -> nat.
  Variable sub_eps : F -> F.

  (** reading and writing one element of an array *)
  Definition rdm (h : mem F) (a : nat) (s : slot) (i : nat) : option F :=
    l ← h a s; rd l i.
  Definition wrm (h : mem F) (a : nat) (s : slot) (i : nat) (x : F) : option (mem F) :=
    l ← h a s; l' ← wr l i x; Some (upd h a s l').

  (** fully_connected_layers.c:2542-2552, the loop of reinitialize_weights_according_to_scores_fcl;
      [steps] is the number of steps to go, i the index *)
  Fixpoint reinit_loop (f : fcl) (idx : list nat) (goodness : F) (steps i : nat) (h : mem F)
    : option (mem F) :=
    match steps with
    | 0 => Some h
    | S steps =>
      j ← rd idx i; s ← rdm h (f_at f) (Val Scores) j;
      if lt s goodness then
        h ← wrm h (f_at f) (Val Weights) j (kaiming i);
        h ← wrm h (f_at f) (Val Scores) j goodness;
        reinit_loop f idx goodness steps (i - 1) h
      else Some h
    end.

  (** fully_connected_layers.c:2538-2553 reinitialize_weights_according_to_scores_fcl: i from
      n-1 down to part(n,percentage)+1 *)
  Definition reinitialize_fcl (percentage goodness : F) (f : fcl) (h : mem F) : option (mem F) :=
    if negb (exists_edge_popup_stuff_fcl f) then Some h
    else let n := f_in f * f_out f in
         let steps := n - 1 - part n percentage in
         match steps with
         | 0 => Some h
         | _ => idx ← ix (f_at f); reinit_loop f idx goodness steps (n - 1) h
         end.

  (** fully_connected_layers.c:2590-2599
      reinitialize_weights_according_to_scores_and_inner_info_fcl *)
  Definition reinitialize_inner_fcl (k : F) (f : fcl) (h : mem F) : option (mem F) :=
    if negb (exists_edge_popup_stuff_fcl f) then Some h
    else let n := f_in f * f_out f in
         if decide (part n k = 0) then Some h
         else idx ← ix (f_at f); j ← rd idx (part n k - 1);
              goodness ← rdm h (f_at f) (Val Scores) j;
              reinitialize_fcl k goodness f h.

  (** fully_connected_layers.c:2576-2579, the loop of
      reinitialize_weights_according_to_scores_fcl_only_percentage *)
  Definition renew_step (f : fcl) (idx : list nat) (score : F) (i : nat) (h : mem F)
    : option (mem F) :=
    j ← rd idx i;
    h ← wrm h (f_at f) (Val Weights) j (kaiming i);
    wrm h (f_at f) (Val Scores) j score.

  (** fully_connected_layers.c:2565-2580 *)
  Definition only_percentage_fcl (k percentage : F) (f : fcl) (h : mem F) : option (mem F) :=
    if negb (exists_edge_popup_stuff_fcl f) then Some h
    else let n := f_in f * f_out f in
         if decide (part n k = 0) then Some h
         else let val := if decide (part n k = n) then 1 else 0 in
              idx ← ix (f_at f); j ← rd idx (part n k - val);
              s ← rdm h (f_at f) (Val Scores) j;
              each1 (renew_step f idx (sub_eps s)) (seq 0 (part n percentage)) h.

  (** convolutional_layers.c:3096-3114
      reinitialize_weights_according_to_scores_cl_only_percentage: [val] is computed and not used *)
  Definition renew_step_cl (c : cl) (idx : list nat) (score : F) (i : nat) (h : mem F)
    : option (mem F) :=
    j ← rd idx i;
    h ← wrm h (c_at c) (Val (Kernel (j / ksize c))) (j mod ksize c) (kaiming i);
    wrm h (c_at c) (Val Scores) j score.
  Definition only_percentage_cl (k percentage : F) (c : cl) (h : mem F) : option (mem F) :=
    if exists_edge_popup_stuff_cl c then
      let n := nsc c in
      if decide (part n k = 0) then Some h
      else idx ← ix (c_at c); j ← rd idx (part n k);
           s ← rdm h (c_at c) (Val Scores) j;
           each1 (renew_step_cl c idx (sub_eps s)) (seq 0 (part n percentage)) h
    else Some h.

  (** ** Weights that edge-popup does not use *)

  (** fully_connected_layers.c:2402-2412 set_fully_connected_unused_weights_to_zero; [unused] is the
      number of i with i < n - n*k_percentage *)
  Definition unused_fcl (unused : nat) (f : fcl) (h : mem F) : option (mem F) :=
    match ix (f_at f), h (f_at f) (Val Weights) with
    | Some idx, Some _ =>
      each1 (fun i h => j ← rd idx i; wrm h (f_at f) (Val Weights) j zero) (seq 0 unused) h
    | _, _ => Some h
    end.

  (** convolutional_layers.c:2946-2956 set_convolutional_unused_weights_to_zero; [unused] is the
      number of i with i < n_kernels - n_kernels*k_percentage; kernels is NULL when its first row is *)
  Definition unused_cl (unused : nat) (c : cl) (h : mem F) : option (mem F) :=
    match ix (c_at c), h (c_at c) (Val (Kernel 0)) with
    | Some idx, Some _ =>
      each1 (fun i h => each1 (fun j h => k ← rd idx i;
                                          if decide (k < c_n c)
                                          then wrm h (c_at c) (Val (Kernel k)) j zero else None)
                          (seq 0 (ksize c)) h) (seq 0 unused) h
    | _, _ => Some h
    end.
End scores.
