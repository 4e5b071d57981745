(** What the flat vector of a network is, in terms of the arrays of its layers. *)
From Verif Require Import Base Flat_Model.
Open Scope nat_scope.

(** The layers of a network, in the order in which they occupy the vector. *)
Inductive layer := Dense (f : fcl) | Conv (c : cl) | Lstmc (l : lstm).
Definition addr (l : layer) : nat :=
  match l with Dense f => f_at f | Conv c => c_at c | Lstmc l => l_at l end.

Definition layers_model (m : model) : list layer :=
  (Dense <$> m_fcls m) ++ (Conv <$> m_cls m) ++ (m_rls m ≫= fun r => Conv <$> r_cls r).
Definition layers_rmodel (m : rmodel) : list layer := Lstmc <$> rm_lstms m.
Definition layers_dueling (d : dueling) : list layer :=
  layers_model (d_shared d) ++ layers_model (d_vhid d) ++ layers_model (d_vlin d) ++
  layers_model (d_ahid d) ++ layers_model (d_alin d).
Definition layers_opt (m : option model) : list layer :=
  match m with None => [] | Some m => layers_model m end.
Definition layers_zero (z : zero) : list layer :=
  layers_opt (z_p1 z) ++ layers_opt (z_p2 z) ++ layers_model (z_h z) ++ layers_model (z_g z) ++
  layers_model (z_f z) ++ layers_model (z_policy z) ++ layers_model (z_value z) ++
  layers_model (z_reward z) ++ layers_model (z_temporal z) ++ layers_rmodel (z_rmodel z).

(** The piece of the vector that a layer occupies: its arrays, one after the other, each with its
    number of elements; [None] is a gap, elements that belong to no array. *)
Definition parts : Type := list (option slot * nat).

Definition dense_params (V : arr -> slot) (f : fcl) : parts :=
  [(Some (V Weights), f_in f * f_out f)] ++
  (if f_noisy f then [(Some (V NoisyWeights), f_in f * f_out f)] else []) ++
  [(Some (V Biases), f_out f)] ++
  (if f_noisy f then [(Some (V NoisyBiases), f_out f)] else []) ++
  (if f_ln f then [(Some (V (Gamma 0)), f_dim f); (Some (V (Beta 0)), f_dim f)] else []).

Definition conv_params (V : arr -> slot) (c : cl) : parts :=
  ((fun i => (Some (V (Kernel i)), c_ch c * c_kr c * c_kc c)) <$> seq 0 (c_n c)) ++
  [(Some (V Biases), c_n c)] ++
  (if c_gn c then
     ((fun i => (Some (V (Gamma i)), c_dim c)) <$> seq 0 (c_n c / c_gch c)) ++
     ((fun i => (Some (V (Beta i)), c_dim c)) <$> seq 0 (c_n c / c_gch c))
   else []).

Definition lstm_gates (l : lstm) : parts :=
  ((fun i => (Some (Val (GateW i)), l_in l * l_out l)) <$> [0; 1; 2; 3]) ++
  ((fun i => (Some (Val (GateU i)), l_out l * l_out l)) <$> [0; 1; 2; 3]).
Definition lstm_norms (l : lstm) : parts :=
  if l_gn l then
    seq 0 (l_window l / l_group l) ≫= fun i =>
      [(Some (Val (Gamma i)), l_dim l); (Some (Val (Beta i)), l_dim l)]
  else [].

(** a layer has scores when it is used or trained with edge-popup *)
Definition scored (ff : ffmode) (tr : tmode) : Prop := ff = EdgeFF \/ tr = EdgePopup.
Global Instance scored_dec ff tr : Decision (scored ff tr).
Proof. unfold scored. apply _. Defined.
(** a layer has derivatives unless it is trained with edge-popup, or not trained *)
Definition derived (tr : tmode) : Prop := tr <> EdgePopup /\ tr <> OnlyFF.
Global Instance derived_dec tr : Decision (derived tr).
Proof. unfold derived. apply _. Defined.

Definition total (ps : parts) : nat := foldr (fun p n => snd p + n) 0 ps.

Definition layout (k : kind) (l : layer) : parts :=
  match l with
  | Dense f =>
    if decide (f_ff f = OnlyDropout) then []
    else match k with
         | Params => dense_params Val f
         | WeightsOnly =>
           [(Some (Val Weights), f_in f * f_out f)] ++
           (if f_noisy f then [(Some (Val NoisyWeights), f_in f * f_out f)] else []) ++
           (if f_ln f then [(Some (Val (Gamma 0)), f_dim f); (Some (Val (Beta 0)), f_dim f)] else [])
         | ScoresOf =>
           if decide (scored (f_ff f) (f_tr f)) then [(Some (Val Scores), f_in f * f_out f)] else []
         | IndicesOf =>
           if decide (scored (f_ff f) (f_tr f)) then [(Some (Val Indices), f_in f * f_out f)] else []
         | Derivs =>
           if decide (derived (f_tr f)) then dense_params Grad f
           else [(None, total (dense_params Grad f))]
         end
  | Conv c =>
    if c_conv c then
      match k with
      | Params => conv_params Val c
      | WeightsOnly =>
        ((fun i => (Some (Val (Kernel i)), c_ch c * c_kr c * c_kc c)) <$> seq 0 (c_n c)) ++
        (if c_gn c then
           ((fun i => (Some (Val (Gamma i)), c_dim c)) <$> seq 0 (c_n c / c_gch c)) ++
           ((fun i => (Some (Val (Beta i)), c_dim c)) <$> seq 0 (c_n c / c_gch c))
         else [])
      | ScoresOf =>
        if decide (scored (c_ff c) (c_tr c))
        then [(Some (Val Scores), c_n c * (c_ch c * c_kr c * c_kc c))] else []
      | IndicesOf =>
        if decide (scored (c_ff c) (c_tr c))
        then [(Some (Val Indices), c_n c * (c_ch c * c_kr c * c_kc c))] else []
      | Derivs =>
        if decide (derived (c_tr c)) then conv_params Grad c
        else [(None, total (conv_params Grad c))]
      end
    else []
  | Lstmc l =>
    match k with
    | Params => lstm_gates l ++ ((fun i => (Some (Val (GateB i)), l_out l)) <$> [0; 1; 2; 3]) ++
                lstm_norms l
    | WeightsOnly => lstm_gates l ++ lstm_norms l
    | ScoresOf =>
      ((fun i => (Some (Val (ScoresW i)), l_in l * l_out l)) <$> [0; 1; 2; 3]) ++
      ((fun i => (Some (Val (ScoresU i)), l_out l * l_out l)) <$> [0; 1; 2; 3])
    | IndicesOf | Derivs => []
    end
  end.

(** The whole vector: the pieces of the layers, one after the other. *)
Definition entry : Type := nat * (option slot * nat).
Definition entries (k : kind) (ls : list layer) : list entry :=
  ls ≫= fun l => (fun p => (addr l, p)) <$> layout k l.
Definition extent (es : list entry) : nat := total (snd <$> es).

Section contents.
  Context {F : Type}.

  (** the arrays are allocated, with these numbers of elements *)
  Definition allocated (h : mem F) (es : list entry) : Prop :=
    forall a s n, (a, (Some s, n)) ∈ es -> exists l, h a s = Some l /\ length l = n.

  (** [v] with the elements that belong to arrays replaced by the contents of the arrays *)
  Fixpoint image (h : mem F) (es : list entry) (v : list F) : list F :=
    match es with
    | [] => v
    | (a, (Some s, n)) :: es => default [] (h a s) ++ image h es (drop n v)
    | (_, (None, n)) :: es => take n v ++ image h es (drop n v)
    end.

  (** the arrays hold the elements of [v] *)
  Fixpoint holds (h : mem F) (es : list entry) (v : list F) : Prop :=
    match es with
    | [] => True
    | (a, (Some s, n)) :: es => h a s = Some (take n v) /\ holds h es (drop n v)
    | (_, (None, n)) :: es => holds h es (drop n v)
    end.

  (** all the contents, when there are no gaps *)
  Definition flat (h : mem F) (es : list entry) : list F :=
    es ≫= fun e => match e with (a, (Some s, _)) => default [] (h a s) | _ => [] end.

  (** the two memories differ at most in the arrays listed *)
  Definition only_changes (es : list entry) (h h' : mem F) : Prop :=
    forall a s, (forall n, (a, (Some s, n)) ∉ es) -> h' a s = h a s.
End contents.

(** no gaps: everything but the derivatives *)
Definition gapless (k : kind) : Prop := k <> Derivs.

(** ** The functions, over every kind of network *)
Inductive net :=
  | OfFcl (f : fcl) | OfCl (c : cl) | OfRl (r : rl) | OfLstm (l : lstm)
  | OfModel (m : model) | OfRmodel (m : rmodel) | OfDueling (d : dueling) | OfZero (z : zero).

Definition layers (n : net) : list layer :=
  match n with
  | OfFcl f => [Dense f] | OfCl c => [Conv c] | OfRl r => Conv <$> r_cls r | OfLstm l => [Lstmc l]
  | OfModel m => layers_model m | OfRmodel m => layers_rmodel m | OfDueling d => layers_dueling d
  | OfZero z => layers_zero z
  end.

(** get_array_size_... *)
Definition size (k : kind) (n : net) : nat :=
  match n with
  | OfFcl f => size_fcl k f | OfCl c => size_cl k c | OfRl r => size_rl k r | OfLstm l => size_lstm k l
  | OfModel m => size_model k m | OfRmodel m => size_rmodel k m | OfDueling d => size_dueling k d
  | OfZero z => size_zero k z
  end.

(** memcopy_..._to_vector...; the vector is written from position [at_] *)
Definition store {F} (k : kind) (h : mem F) (n : net) (at_ : nat) (v : list F) : option (list F) :=
  match n with
  | OfFcl f => fcl_to_vector k h f at_ v
  | OfCl c => cl_to_vector k h c at_ v
  | OfRl r => rl_to_vector k h r at_ v
  | OfLstm l => lstm_to_vector k h l at_ v
  | OfModel m => model_to_vector k h m at_ v
  | OfRmodel m => rmodel_to_vector k h m at_ v
  | OfDueling d => dueling_to_vector k h d at_ v
  | OfZero z => zero_to_vector k h z at_ v
  end.

(** memcopy_vector_to_... *)
Definition load {F} (k : kind) (v : list F) (n : net) (at_ : nat) (h : mem F) : option (mem F) :=
  match n with
  | OfFcl f => vector_to_fcl k v f at_ h
  | OfCl c => vector_to_cl k v c at_ h
  | OfRl r => vector_to_rl k v r at_ h
  | OfLstm l => vector_to_lstm k v l at_ h
  | OfModel m => vector_to_model k v m at_ h
  | OfRmodel m => vector_to_rmodel k v m at_ h
  | OfDueling d => vector_to_dueling k v d at_ h
  | OfZero z => vector_to_zero k v z at_ h
  end.
