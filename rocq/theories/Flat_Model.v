(** Model of the flat-vector view of networks, the functions that copy the parameters, the weights,
    the edge-popup scores, the edge-popup indices or the derivatives of a network to a vector and
    back: src/fully_connected_layers.c:646-668, 2070-2386, convolutional_layers.c:908-944, 2621-2926,
    residual_layers.c:655-924, recurrent_layers.c:1958-2150, rmodel.c:2251-2397,
    model.c:8744-9156, dueling_categorical_dqn.c:847-1167, efficientzeromodel.c:1183-1439.

    The memory gives, for the address of a layer and the name of one of its arrays, the contents of
    that array, or [None] for the NULL pointer.  Copying from or to NULL, or outside an array or
    outside the vector, is undefined behaviour ([None]).  Simplifications: the sizes are natural
    numbers, so that int products and the int sums of residual_layers.c do not wrap; no layer or
    model is NULL; the arrays of a matrix (kernels, lstm gates) are separate arrays and a NULL matrix
    is one whose arrays are NULL; the elements are of an arbitrary type [F] (float, or int for the
    indices).  Not modelled here: the functions that make a layer point into the vector instead of
    copying it (assign_vector_to_scores, memcopy_vector_to_indices). *)
From Verif Require Import Base.
Open Scope nat_scope.

(** feed_forward_flag and training_mode (llab.h) *)
Inductive ffmode := FullyFF | EdgeFF | OnlyDropout.
Inductive tmode := GradientDescent | EdgePopup | Freezed | OnlyFF.
Global Instance ffmode_dec : EqDecision ffmode. Proof. solve_decision. Defined.
Global Instance tmode_dec : EqDecision tmode. Proof. solve_decision. Defined.

(** the arrays of a layer: llab.h, struct fcl, cl, bn, lstm *)
Inductive arr :=
  | Weights | NoisyWeights | Biases | NoisyBiases | Kernel (i : nat) | Gamma (i : nat) | Beta (i : nat)
  | GateW (i : nat) | GateU (i : nat) | GateB (i : nat)
  | Scores | ScoresW (i : nat) | ScoresU (i : nat) | Indices.
Global Instance arr_dec : EqDecision arr. Proof. solve_decision. Defined.

(** an array, or the array of its derivatives: weights and d_weights *)
Inductive slot := Val (a : arr) | Grad (a : arr).
Global Instance slot_dec : EqDecision slot. Proof. solve_decision. Defined.

(** llab.h, struct fcl: the fields that the copies look at; [f_dim] is layer_norm->vector_dim *)
Record fcl := Fcl { f_at : nat; f_in : nat; f_out : nat; f_noisy : bool; f_ff : ffmode;
                    f_tr : tmode; f_ln : bool; f_dim : nat }.

(** llab.h, struct cl; [c_conv]: convolutional_flag != NO_CONVOLUTION; [c_gn]: normalization_flag ==
    GROUP_NORMALIZATION; [c_dim]: group_norm[i]->vector_dim, the same for every i
    (convolutional_layers.c:371-377) *)
Record cl := Cl { c_at : nat; c_n : nat; c_ch : nat; c_kr : nat; c_kc : nat; c_conv : bool;
                  c_ff : ffmode; c_tr : tmode; c_gn : bool; c_gch : nat; c_dim : nat }.

(** llab.h, struct lstm; [l_dim]: bns[i]->vector_dim (recurrent_layers.c:124) *)
Record lstm := Lstm { l_at : nat; l_in : nat; l_out : nat; l_gn : bool; l_window : nat;
                      l_group : nat; l_dim : nat }.

(** llab.h, struct rl, model, rmodel, dueling_categorical_dqn, efficientzeromodel *)
Record rl := Rl { r_cls : list cl }.
Record model := Model { m_fcls : list fcl; m_cls : list cl; m_rls : list rl }.
Record rmodel := Rmodel { rm_lstms : list lstm }.
Record dueling := Dueling { d_shared : model; d_vhid : model; d_vlin : model; d_ahid : model;
                            d_alin : model }.
Record zero := Zero { z_p1 : option model; z_p2 : option model; z_h : model; z_g : model;
                      z_f : model; z_policy : model; z_value : model; z_reward : model;
                      z_temporal : model; z_rmodel : rmodel }.

(** which of the families of functions *)
Inductive kind := Params | WeightsOnly | ScoresOf | IndicesOf | Derivs.

(** fully_connected_layers.c:652-668 *)
Definition exists_params_fcl (f : fcl) : bool := bool_decide (f_ff f <> OnlyDropout).
Definition exists_d_params_fcl (f : fcl) : bool :=
  bool_decide (f_ff f <> OnlyDropout) && bool_decide (f_tr f <> EdgePopup) &&
  bool_decide (f_tr f <> OnlyFF).
Definition exists_edge_popup_stuff_fcl (f : fcl) : bool :=
  bool_decide (f_ff f <> OnlyDropout) &&
  (bool_decide (f_ff f = EdgeFF) || bool_decide (f_tr f = EdgePopup)).

(** convolutional_layers.c:910-940; that d_kernels and d_biases are not NULL is looked up in the
    memory, see [cl_guard] *)
Definition exists_kernels_cl (c : cl) : bool := c_conv c.
Definition exists_edge_popup_stuff_cl (c : cl) : bool :=
  c_conv c && (bool_decide (c_ff c = EdgeFF) || bool_decide (c_tr c = EdgePopup)).
Definition exists_d_flags_cl (c : cl) : bool :=
  bool_decide (c_tr c <> EdgePopup) && bool_decide (c_tr c <> OnlyFF) && c_conv c.

(** ** Sizes *)

(** fully_connected_layers.c:2082-2095 get_array_size_params, 2104-2108 get_array_size_scores_fcl,
    2118-2130 get_array_size_weights *)
Definition size_fcl (k : kind) (f : fcl) : nat :=
  match k with
  | Params | Derivs =>
    if exists_params_fcl f then
      f_in f * f_out f + f_out f + ((if f_ln f then f_dim f * 2 else 0) +
      (if f_noisy f then f_in f * f_out f + f_out f else 0))
    else 0
  | WeightsOnly =>
    if exists_params_fcl f then
      f_in f * f_out f + ((if f_ln f then f_dim f * 2 else 0) +
      (if f_noisy f then f_in f * f_out f else 0))
    else 0
  | ScoresOf | IndicesOf => if exists_edge_popup_stuff_fcl f then f_in f * f_out f else 0
  end.

(** convolutional_layers.c: channels*kernel_rows*kernel_cols, and n_kernels/group_norm_channels *)
Definition ksize (c : cl) : nat := c_ch c * c_kr c * c_kc c.
Definition groups (c : cl) : nat := c_n c / c_gch c.

(** convolutional_layers.c:2621-2632 get_array_size_params_cl, 2641-2652 get_array_size_weights_cl,
    2660-2664 get_array_size_scores_cl; the loop over the groups adds the same number each time *)
Definition size_cl (k : kind) (c : cl) : nat :=
  match k with
  | Params | Derivs =>
    if exists_kernels_cl c then
      (if c_gn c then groups c * (c_dim c * 2) else 0) + c_n c * ksize c + c_n c
    else 0
  | WeightsOnly =>
    if exists_kernels_cl c then
      (if c_gn c then groups c * (c_dim c * 2) else 0) + c_n c * ksize c
    else 0
  | ScoresOf | IndicesOf => if exists_edge_popup_stuff_cl c then c_n c * ksize c else 0
  end.

(** recurrent_layers.c:1958-1967 get_array_size_params_lstm, 1977-1979 get_array_size_scores_lstm,
    1989-1998 get_array_size_weights_lstm; there are no such functions for the other kinds *)
Definition bns (l : lstm) : nat := l_window l / l_group l.
Definition size_lstm (k : kind) (l : lstm) : nat :=
  match k with
  | Params => 4 * (l_in l * l_out l + l_out l * l_out l + l_out l) +
              (if l_gn l then bns l * (l_dim l * 2) else 0)
  | WeightsOnly => 4 * (l_in l * l_out l + l_out l * l_out l) +
                   (if l_gn l then bns l * (l_dim l * 2) else 0)
  | ScoresOf => 4 * (l_in l * l_out l + l_out l * l_out l)
  | IndicesOf | Derivs => 0
  end.

(** the loops "for(i = 0; i < n; i++) sum += size(l[i])" *)
Definition sum_sizes {L} (size : L -> nat) (ls : list L) : nat :=
  foldl (fun s l => s + size l) 0 ls.

(** residual_layers.c:655-706 get_array_size_params_rl, _weights_rl, _scores_rl *)
Definition size_rl (k : kind) (r : rl) : nat := sum_sizes (size_cl k) (r_cls r).

(** model.c:8772-8846 get_array_size_params_model, _scores_model, _weights_model *)
Definition size_model (k : kind) (m : model) : nat :=
  sum_sizes (size_fcl k) (m_fcls m) + sum_sizes (size_cl k) (m_cls m) +
  sum_sizes (size_rl k) (m_rls m).

(** rmodel.c:2251-2296 *)
Definition size_rmodel (k : kind) (m : rmodel) : nat := sum_sizes (size_lstm k) (rm_lstms m).

(** dueling_categorical_dqn.c:847-872, 982-992 *)
Definition size_dueling (k : kind) (d : dueling) : nat :=
  size_model k (d_shared d) + size_model k (d_vhid d) + size_model k (d_vlin d) +
  size_model k (d_ahid d) + size_model k (d_alin d).

(** a part of the network that may be NULL has size 0: model.c:8773 *)
Definition size_opt (k : kind) (m : option model) : nat :=
  match m with None => 0 | Some m => size_model k m end.

(** efficientzeromodel.c:1183-1240 *)
Definition size_zero (k : kind) (z : zero) : nat :=
  size_opt k (z_p1 z) + size_opt k (z_p2 z) + size_model k (z_h z) + size_model k (z_g z) +
  size_model k (z_f z) + size_model k (z_policy z) + size_model k (z_value z) +
  size_model k (z_reward z) + size_model k (z_temporal z) + size_rmodel k (z_rmodel z).

(** ** The copies made by one layer: array, place in the vector, number of elements *)

Definition seg : Type := slot * nat * nat.

(** fully_connected_layers.c:2238-2262 memcopy_params_to_vector ([V] is [Val]), 2366-2386
    memcopy_derivative_params_to_vector ([V] is [Grad]) *)
Definition fcl_params_out (V : arr -> slot) (f : fcl) : list seg :=
  let io := f_in f * f_out f in
  let multiplier := if f_noisy f then 2 else 1 in
  [(V Weights, 0, io)] ++
  (if f_noisy f then [(V NoisyWeights, io, io)] else []) ++
  [(V Biases, multiplier * io, f_out f)] ++
  (if f_noisy f then [(V NoisyBiases, multiplier * io + f_out f, f_out f)] else []) ++
  (if f_ln f then
     [(V (Gamma 0), multiplier * io + multiplier * f_out f, f_dim f);
      (V (Beta 0), multiplier * io + multiplier * f_out f + f_dim f, f_dim f)]
   else []).

(** fully_connected_layers.c:2139-2158 memcopy_vector_to_params, 2338-2356
    memcopy_vector_to_derivative_params *)
Definition fcl_params_in (V : arr -> slot) (f : fcl) : list seg :=
  let io := f_in f * f_out f in
  let multiplier := if f_noisy f then 2 else 1 in
  [(V Weights, 0, io)] ++
  (if f_noisy f then [(V NoisyWeights, io, io)] else []) ++
  [(V Biases, multiplier * io, f_out f)] ++
  (if f_noisy f then [(V NoisyBiases, multiplier * io + f_out f, f_out f)] else []) ++
  (if f_ln f then
     [(V (Gamma 0), multiplier * io + multiplier * f_out f, f_dim f);
      (V (Beta 0), multiplier * io + multiplier * f_out f + f_dim f, f_dim f)]
   else []).

(** fully_connected_layers.c:2265-2280 memcopy_weights_to_vector *)
Definition fcl_weights_out (f : fcl) : list seg :=
  let io := f_in f * f_out f in
  let multiplier := if f_noisy f then 2 else 1 in
  [(Val Weights, 0, io)] ++
  (if f_noisy f then [(Val NoisyWeights, io, io)] else []) ++
  (if f_ln f then
     [(Val (Gamma 0), multiplier * io, f_dim f); (Val (Beta 0), multiplier * io + f_dim f, f_dim f)]
   else []).

(** fully_connected_layers.c:2288-2303 memcopy_vector_to_weights *)
Definition fcl_weights_in (f : fcl) : list seg :=
  let io := f_in f * f_out f in
  let multiplier := if f_noisy f then 2 else 1 in
  [(Val Weights, 0, io)] ++
  (if f_noisy f then [(Val NoisyWeights, io, io)] else []) ++
  (if f_ln f then
     [(Val (Gamma 0), multiplier * io, f_dim f); (Val (Beta 0), multiplier * io + f_dim f, f_dim f)]
   else []).

(** fully_connected_layers.c:2311-2316 memcopy_scores_to_vector, 2195-2200
    memcopy_indices_to_vector, and the guards of the functions above *)
Definition fcl_out (k : kind) (f : fcl) : list seg :=
  match k with
  | Params => if exists_params_fcl f then fcl_params_out Val f else []
  | WeightsOnly => if exists_params_fcl f then fcl_weights_out f else []
  | ScoresOf =>
    if exists_edge_popup_stuff_fcl f then [(Val Scores, 0, f_in f * f_out f)] else []
  | IndicesOf =>
    if exists_edge_popup_stuff_fcl f then [(Val Indices, 0, f_in f * f_out f)] else []
  | Derivs => if exists_d_params_fcl f then fcl_params_out Grad f else []
  end.

(** fully_connected_layers.c:2167-2172 memcopy_vector_to_scores, 2181-2186
    memcopy_vector_to_indices2, and the guards of the functions above *)
Definition fcl_in (k : kind) (f : fcl) : list seg :=
  match k with
  | Params => if exists_params_fcl f then fcl_params_in Val f else []
  | WeightsOnly => if exists_params_fcl f then fcl_weights_in f else []
  | ScoresOf =>
    if exists_edge_popup_stuff_fcl f then [(Val Scores, 0, f_in f * f_out f)] else []
  | IndicesOf =>
    if exists_edge_popup_stuff_fcl f then [(Val Indices, 0, f_in f * f_out f)] else []
  | Derivs => if exists_d_params_fcl f then fcl_params_in Grad f else []
  end.

(** convolutional_layers.c:2704-2724 memcopy_params_to_vector_cl, 2906-2926
    memcopy_derivative_params_to_vector_cl *)
Definition cl_params_out (V : arr -> slot) (c : cl) : list seg :=
  ((fun i => (V (Kernel i), i * ksize c, ksize c)) <$> seq 0 (c_n c)) ++
  [(V Biases, c_n c * ksize c, c_n c)] ++
  (if c_gn c then
     ((fun i => (V (Gamma i), c_n c * ksize c + c_n c + i * c_dim c, c_dim c)) <$>
       seq 0 (groups c)) ++
     ((fun i => (V (Beta i), c_n c * ksize c + c_n c + (groups c + i) * c_dim c, c_dim c)) <$>
       seq 0 (groups c))
   else []).

(** convolutional_layers.c:2674-2694 memcopy_vector_to_params_cl, 2876-2896
    memcopy_vector_to_derivative_params_cl *)
Definition cl_params_in (V : arr -> slot) (c : cl) : list seg :=
  ((fun i => (V (Kernel i), i * ksize c, ksize c)) <$> seq 0 (c_n c)) ++
  [(V Biases, c_n c * ksize c, c_n c)] ++
  (if c_gn c then
     ((fun i => (V (Gamma i), c_n c * ksize c + c_n c + i * c_dim c, c_dim c)) <$>
       seq 0 (groups c)) ++
     ((fun i => (V (Beta i), c_n c * ksize c + c_n c + (groups c + i) * c_dim c, c_dim c)) <$>
       seq 0 (groups c))
   else []).

(** convolutional_layers.c:2762-2781 memcopy_weights_to_vector_cl *)
Definition cl_weights_out (c : cl) : list seg :=
  ((fun i => (Val (Kernel i), i * ksize c, ksize c)) <$> seq 0 (c_n c)) ++
  (if c_gn c then
     ((fun i => (Val (Gamma i), c_n c * ksize c + i * c_dim c, c_dim c)) <$> seq 0 (groups c)) ++
     ((fun i => (Val (Beta i), c_n c * ksize c + (groups c + i) * c_dim c, c_dim c)) <$>
       seq 0 (groups c))
   else []).

(** convolutional_layers.c:2733-2752 memcopy_vector_to_weights_cl *)
Definition cl_weights_in (c : cl) : list seg :=
  ((fun i => (Val (Kernel i), i * ksize c, ksize c)) <$> seq 0 (c_n c)) ++
  (if c_gn c then
     ((fun i => (Val (Gamma i), c_n c * ksize c + i * c_dim c, c_dim c)) <$> seq 0 (groups c)) ++
     ((fun i => (Val (Beta i), c_n c * ksize c + (groups c + i) * c_dim c, c_dim c)) <$>
       seq 0 (groups c))
   else []).

(** convolutional_layers.c:2790-2795 memcopy_scores_to_vector_cl, 2805-2810
    memcopy_indices_to_vector_cl; [g] is the guard of the derivatives, [cl_guard] *)
Definition cl_out (k : kind) (g : bool) (c : cl) : list seg :=
  match k with
  | Params => if exists_kernels_cl c then cl_params_out Val c else []
  | WeightsOnly => if exists_kernels_cl c then cl_weights_out c else []
  | ScoresOf => if exists_edge_popup_stuff_cl c then [(Val Scores, 0, c_n c * ksize c)] else []
  | IndicesOf => if exists_edge_popup_stuff_cl c then [(Val Indices, 0, c_n c * ksize c)] else []
  | Derivs => if g then cl_params_out Grad c else []
  end.

(** convolutional_layers.c:2820-2824 memcopy_vector_to_scores_cl, 2862-2866
    memcopy_vector_to_indices_cl2 *)
Definition cl_in (k : kind) (g : bool) (c : cl) : list seg :=
  match k with
  | Params => if exists_kernels_cl c then cl_params_in Val c else []
  | WeightsOnly => if exists_kernels_cl c then cl_weights_in c else []
  | ScoresOf => if exists_edge_popup_stuff_cl c then [(Val Scores, 0, c_n c * ksize c)] else []
  | IndicesOf => if exists_edge_popup_stuff_cl c then [(Val Indices, 0, c_n c * ksize c)] else []
  | Derivs => if g then cl_params_in Grad c else []
  end.

(** recurrent_layers.c:2008-2026 memcopy_params_to_vector_lstm, 2105-2121
    memcopy_weights_to_vector_lstm, 2035-2044 memcopy_scores_to_vector_lstm *)
Definition lstm_out (k : kind) (l : lstm) : list seg :=
  let io := l_in l * l_out l in
  let oo := l_out l * l_out l in
  let norms (base : nat) : list seg :=
    if l_gn l then
      seq 0 (bns l) ≫= fun i =>
        [(Val (Gamma i), base + i * 2 * l_dim l, l_dim l);
         (Val (Beta i), base + i * 2 * l_dim l + l_dim l, l_dim l)]
    else [] in
  match k with
  | Params =>
    ((fun i => (Val (GateW i), i * io, io)) <$> seq 0 4) ++
    ((fun i => (Val (GateU i), 4 * io + i * oo, oo)) <$> seq 0 4) ++
    ((fun i => (Val (GateB i), 4 * (io + oo) + i * l_out l, l_out l)) <$> seq 0 4) ++
    norms (4 * (io + oo + l_out l))
  | WeightsOnly =>
    ((fun i => (Val (GateW i), i * io, io)) <$> seq 0 4) ++
    ((fun i => (Val (GateU i), 4 * io + i * oo, oo)) <$> seq 0 4) ++
    norms (4 * (io + oo))
  | ScoresOf =>
    ((fun i => (Val (ScoresW i), i * io, io)) <$> seq 0 4) ++
    ((fun i => (Val (ScoresU i), 4 * io + i * oo, oo)) <$> seq 0 4)
  | IndicesOf | Derivs => []
  end.

(** recurrent_layers.c:2053-2071 memcopy_vector_to_params_lstm, 2080-2096
    memcopy_vector_to_weights_lstm, 2130-2139 memcopy_vector_to_scores_lstm *)
Definition lstm_in (k : kind) (l : lstm) : list seg :=
  let io := l_in l * l_out l in
  let oo := l_out l * l_out l in
  let norms (base : nat) : list seg :=
    if l_gn l then
      seq 0 (bns l) ≫= fun i =>
        [(Val (Gamma i), base + i * 2 * l_dim l, l_dim l);
         (Val (Beta i), base + i * 2 * l_dim l + l_dim l, l_dim l)]
    else [] in
  match k with
  | Params =>
    ((fun i => (Val (GateW i), i * io, io)) <$> seq 0 4) ++
    ((fun i => (Val (GateU i), 4 * io + i * oo, oo)) <$> seq 0 4) ++
    ((fun i => (Val (GateB i), 4 * (io + oo) + i * l_out l, l_out l)) <$> seq 0 4) ++
    norms (4 * (io + oo + l_out l))
  | WeightsOnly =>
    ((fun i => (Val (GateW i), i * io, io)) <$> seq 0 4) ++
    ((fun i => (Val (GateU i), 4 * io + i * oo, oo)) <$> seq 0 4) ++
    norms (4 * (io + oo))
  | ScoresOf =>
    ((fun i => (Val (ScoresW i), i * io, io)) <$> seq 0 4) ++
    ((fun i => (Val (ScoresU i), 4 * io + i * oo, oo)) <$> seq 0 4)
  | IndicesOf | Derivs => []
  end.

(** ** Walking over the layers of a network

    [cf], [cc] and [cr] copy one layer at a place of the vector; the state is the vector when
    copying to it, the memory when copying from it. *)
Section walk.
  Context {S : Type}.
  Variable k : kind.
  Variable cf : fcl -> nat -> S -> option S.
  Variable cc : cl -> nat -> S -> option S.
  Variable cr : lstm -> nat -> S -> option S.

  (** "for(i = 0; i < n; i++){ copy(l[i],&vector[sum]); sum += size(l[i]); }" *)
  Fixpoint walk {L} (size : L -> nat) (copy : L -> nat -> S -> option S) (ls : list L)
      (sum : nat) (s : S) : option (nat * S) :=
    match ls with
    | [] => Some (sum, s)
    | l :: ls => s' ← copy l sum s; walk size copy ls (sum + size l) s'
    end.

  (** residual_layers.c:715-924, the loops over r->cls; the sum restarts at 0 from the pointer that
      the caller gives *)
  Definition copy_rl (r : rl) (at_ : nat) (s : S) : option S :=
    snd <$> walk (size_cl k) (fun c o => cc c (at_ + o)) (r_cls r) 0 s.

  (** model.c:8854-9156, the three loops *)
  Definition copy_model (m : model) (at_ : nat) (s : S) : option S :=
    '(sum, s) ← walk (size_fcl k) (fun f o => cf f (at_ + o)) (m_fcls m) 0 s;
    '(sum, s) ← walk (size_cl k) (fun c o => cc c (at_ + o)) (m_cls m) sum s;
    '(_, s) ← walk (size_rl k) (fun r o => copy_rl r (at_ + o)) (m_rls m) sum s;
    Some s.

  (** rmodel.c:2305-2397 *)
  Definition copy_rmodel (m : rmodel) (at_ : nat) (s : S) : option S :=
    snd <$> walk (size_lstm k) (fun l o => cr l (at_ + o)) (rm_lstms m) 0 s.

  (** dueling_categorical_dqn.c:994-1167 *)
  Definition copy_dueling (d : dueling) (at_ : nat) (s : S) : option S :=
    snd <$> walk (size_model k) (fun m o => copy_model m (at_ + o))
      [d_shared d; d_vhid d; d_vlin d; d_ahid d; d_alin d] 0 s.

  (** a part that is NULL is skipped *)
  Definition copy_opt (m : option model) (at_ : nat) (s : S) : option S :=
    match m with None => Some s | Some m => copy_model m at_ s end.

  (** efficientzeromodel.c:1243-1439 *)
  Definition copy_zero (z : zero) (at_ : nat) (s : S) : option S :=
    '(sum, s) ← walk (size_opt k) (fun m o => copy_opt m (at_ + o)) [z_p1 z; z_p2 z] 0 s;
    '(sum, s) ← walk (size_model k) (fun m o => copy_model m (at_ + o))
      [z_h z; z_g z; z_f z; z_policy z; z_value z; z_reward z; z_temporal z] sum s;
    copy_rmodel (z_rmodel z) (at_ + sum) s.
End walk.

(** ** Memory *)
Section mem.
  Context {F : Type}.
  Definition mem : Type := nat -> slot -> option (list F).

  Definition upd (h : mem) (a : nat) (s : slot) (l : list F) : mem :=
    fun a' s' => if decide (a' = a /\ s' = s) then Some l else h a' s'.

  (** memcpy(&vector[off],array,n*sizeof(float)), and copy_array, utils.c:614-619 *)
  Definition memcpy_out (h : mem) (a : nat) (s : slot) (off n : nat) (v : list F)
    : option (list F) :=
    match h a s with
    | None => None
    | Some l =>
      if decide (n <= length l /\ off + n <= length v)
      then Some (take off v ++ take n l ++ drop (off + n) v) else None
    end.

  (** memcpy(array,&vector[off],n*sizeof(float)) *)
  Definition memcpy_in (v : list F) (a : nat) (s : slot) (off n : nat) (h : mem) : option mem :=
    match h a s with
    | None => None
    | Some l =>
      if decide (n <= length l /\ off + n <= length v)
      then Some (upd h a s (take n (drop off v) ++ drop n l)) else None
    end.

  (** the copies of a layer, in the order of the program *)
  Fixpoint run_out (h : mem) (a : nat) (at_ : nat) (l : list seg) (v : list F)
    : option (list F) :=
    match l with
    | [] => Some v
    | (s, o, n) :: l => v' ← memcpy_out h a s (at_ + o) n v; run_out h a at_ l v'
    end.
  Fixpoint run_in (v : list F) (a : nat) (at_ : nat) (l : list seg) (h : mem) : option mem :=
    match l with
    | [] => Some h
    | (s, o, n) :: l => h' ← memcpy_in v a s (at_ + o) n h; run_in v a at_ l h'
    end.

  (** convolutional_layers.c:910-916: the flags allow derivatives, and d_kernels and d_biases are
      not NULL; the two pointers are NULL together (convolutional_layers.c:137-224, 3200-3216), so
      that only one of them is looked at *)
  Definition cl_guard (h : mem) (c : cl) : bool :=
    exists_d_flags_cl c && bool_decide (is_Some (h (c_at c) (Grad Biases))).

  (** from a network to the vector; [h] is the memory *)
  Definition fcl_to_vector (k : kind) (h : mem) (f : fcl) (at_ : nat) (v : list F) :=
    run_out h (f_at f) at_ (fcl_out k f) v.
  Definition cl_to_vector (k : kind) (h : mem) (c : cl) (at_ : nat) (v : list F) :=
    run_out h (c_at c) at_ (cl_out k (cl_guard h c) c) v.
  Definition lstm_to_vector (k : kind) (h : mem) (l : lstm) (at_ : nat) (v : list F) :=
    run_out h (l_at l) at_ (lstm_out k l) v.
  Definition rl_to_vector (k : kind) (h : mem) := copy_rl k (cl_to_vector k h).
  Definition model_to_vector (k : kind) (h : mem) :=
    copy_model k (fcl_to_vector k h) (cl_to_vector k h).
  Definition rmodel_to_vector (k : kind) (h : mem) := copy_rmodel k (lstm_to_vector k h).
  Definition dueling_to_vector (k : kind) (h : mem) :=
    copy_dueling k (fcl_to_vector k h) (cl_to_vector k h).
  Definition zero_to_vector (k : kind) (h : mem) :=
    copy_zero k (fcl_to_vector k h) (cl_to_vector k h) (lstm_to_vector k h).

  (** from the vector to a network *)
  Definition vector_to_fcl (k : kind) (v : list F) (f : fcl) (at_ : nat) (h : mem) :=
    run_in v (f_at f) at_ (fcl_in k f) h.
  Definition vector_to_cl (k : kind) (v : list F) (c : cl) (at_ : nat) (h : mem) :=
    run_in v (c_at c) at_ (cl_in k (cl_guard h c) c) h.
  Definition vector_to_lstm (k : kind) (v : list F) (l : lstm) (at_ : nat) (h : mem) :=
    run_in v (l_at l) at_ (lstm_in k l) h.
  Definition vector_to_rl (k : kind) (v : list F) := copy_rl k (vector_to_cl k v).
  Definition vector_to_model (k : kind) (v : list F) :=
    copy_model k (vector_to_fcl k v) (vector_to_cl k v).
  Definition vector_to_rmodel (k : kind) (v : list F) := copy_rmodel k (vector_to_lstm k v).
  Definition vector_to_dueling (k : kind) (v : list F) :=
    copy_dueling k (vector_to_fcl k v) (vector_to_cl k v).
  Definition vector_to_zero (k : kind) (v : list F) :=
    copy_zero k (vector_to_fcl k v) (vector_to_cl k v) (vector_to_lstm k v).
End mem.
Arguments mem F : clear implicits.

(** ** The layer that an index of the score vector belongs to *)

(** "sum += size(l[i]); if(sum > s) return sum;": [inr] is a returned value *)
Fixpoint seek {L} (size : L -> nat) (s : nat) (ls : list L) (sum : nat) : nat + nat :=
  match ls with
  | [] => inl sum
  | l :: ls => if decide (s < sum + size l) then inr (sum + size l) else seek size s ls (sum + size l)
  end.
Definition andthen (r : nat + nat) (g : nat -> nat + nat) : nat + nat :=
  match r with inl sum => g sum | inr x => inr x end.

(** dueling_categorical_dqn.c:879-899, the loops over one of the five models *)
Definition seek_model (s : nat) (m : model) (sum : nat) : nat + nat :=
  andthen (seek (size_fcl ScoresOf) s (m_fcls m) sum) (fun sum =>
  andthen (seek (size_cl ScoresOf) s (m_cls m) sum) (fun sum =>
  foldl (fun r rl => andthen r (fun sum => seek (size_cl ScoresOf) s (r_cls rl) sum)) (inl sum)
    (m_rls m))).

(** dueling_categorical_dqn.c:874-979 get_array_size_scores_index_dueling_categorical_dqn *)
Definition get_array_size_scores_index (d : dueling) (s : nat) : nat :=
  match andthen (seek_model s (d_shared d) 0) (fun sum =>
        andthen (seek_model s (d_vhid d) sum) (fun sum =>
        andthen (seek_model s (d_vlin d) sum) (fun sum =>
        andthen (seek_model s (d_ahid d) sum) (fun sum => seek_model s (d_alin d) sum)))) with
  | inl sum | inr sum => sum
  end.

(** ** Switching a network to edge-popup and back *)

(** model.c:9623-9648 set_model_training_edge_popup: the flags of every layer are set, and nothing
    is allocated; k_percentage is left out *)
Definition edge_fcl (f : fcl) : fcl :=
  Fcl (f_at f) (f_in f) (f_out f) (f_noisy f) EdgeFF EdgePopup (f_ln f) (f_dim f).
Definition edge_cl (c : cl) : cl :=
  Cl (c_at c) (c_n c) (c_ch c) (c_kr c) (c_kc c) (c_conv c) EdgeFF EdgePopup (c_gn c) (c_gch c)
    (c_dim c).
Definition set_model_training_edge_popup (m : model) : model :=
  Model (edge_fcl <$> m_fcls m) (edge_cl <$> m_cls m)
    ((fun r => Rl (edge_cl <$> r_cls r)) <$> m_rls m).

(** model.c:9656-9671 set_model_training_gd: only training_mode is set *)
Definition gd_fcl (f : fcl) : fcl :=
  Fcl (f_at f) (f_in f) (f_out f) (f_noisy f) (f_ff f) GradientDescent (f_ln f) (f_dim f).
Definition gd_cl (c : cl) : cl :=
  Cl (c_at c) (c_n c) (c_ch c) (c_kr c) (c_kc c) (c_conv c) (c_ff c) GradientDescent (c_gn c)
    (c_gch c) (c_dim c).
Definition set_model_training_gd (m : model) : model :=
  Model (gd_fcl <$> m_fcls m) (gd_cl <$> m_cls m)
    ((fun r => Rl (gd_cl <$> r_cls r)) <$> m_rls m).
