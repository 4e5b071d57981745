(** Specification: the shape of a layer, and which arrays are parameters, derivatives and scratch space *)
From Verif Require Import NumLib Fn_Spec Life_Model.
From Coq Require Import Reals.
Notation vec := (list R).
Open Scope nat_scope.

(** the size of each array *)
Definition fsize (c : config) (k : fld) : nat :=
  match k with
  | Weights | Noisy_weights | DWeights _ | DNoisy_weights _ | Scores | DScores _ | Noise | Temp_weights => input c * output c
  | Temp2 | Error2 => input c
  | _ => output c
  end.
(** the learned parameters *)
Definition parameter (k : fld) : Prop := match k with Weights | Biases | Noisy_weights | Noisy_biases | Scores => True | _ => False end.
(** the accumulated partial derivatives *)
Definition derivative (k : fld) : Prop := match k with DWeights o0 | DBiases o0 | DNoisy_weights o0 | DNoisy_biases o0 | DScores o0 => True | _ => False end.
(** the running values of the optimizers *)
Definition optimizer (k : fld) : Prop :=
  match k with DWeights (o1 | o2 | o3) | DBiases (o1 | o2 | o3) | DNoisy_weights (o1 | o2 | o3) | DNoisy_biases (o1 | o2 | o3) | DScores (o1 | o2 | o3) => True | _ => False end.
Definition kept (k : fld) : Prop := parameter k \/ derivative k \/ optimizer k.
(** which arrays a layer of a given configuration has *)
Definition has (c : config) (k : fld) : Prop :=
  match k with
  | Weights | Biases | Pre_activation | Temp | Temp2 | Temp3 | Error2 => True
  | Noisy_weights | Noisy_biases | Noise | Noise_biases | Temp_weights | Temp_biases => noisy c = true
  | DWeights _ | DBiases _ => training_mode c <> Edge_popup /\ training_mode c <> Only_ff
  | DNoisy_weights _ | DNoisy_biases _ => (training_mode c <> Edge_popup /\ training_mode c <> Only_ff) /\ noisy c = true
  | Scores | DScores _ => feed_forward_flag c = Edge_popup_ff \/ training_mode c = Edge_popup
  | Post_activation => activation c = true
  | Post_normalization => normalization_flag c = Layer_norm \/ normalization_flag c = Local_response
  | Dropout_mask | Dropout_temp => dropout_flag c <> No_dropout
  end.
(** an array of the given size, or NULL *)
Definition sized (x : option vec) (n : nat) : Prop := ∃ a, x = Some a /\ length a = n.
Definition bn_shaped (b : bn) : Prop :=
  0 < batch b /\ 0 < vdim b /\ ∀ k, match k with Row _ i => if decide (i < batch b) then sized (b_arr b k) (vdim b) else b_arr b k = None | _ => sized (b_arr b k) (vdim b) end.
Definition bn_kept (k : bfld) : Prop := match k with Gamma | DGamma _ | Beta | DBeta _ => True | _ => False end.
Definition shaped (f : fcl) : Prop :=
  let c := cfg f in
  (∀ k, has c k -> sized (arr f k) (fsize c k)) /\ (∀ k, ~ has c k -> arr f k = None) /\
  (∃ l, active f = Some l /\ length l = output c) /\
  (has c Scores -> ∃ l, indices f = Some l /\ length l = input c * output c) /\ (~ has c Scores -> indices f = None) /\
  (normalization_flag c = Layer_norm -> ∃ b, layer_norm f = Some b /\ bn_shaped b /\ batch b = n_groups c /\ vdim b = output c / n_groups c) /\
  (normalization_flag c <> Layer_norm -> layer_norm f = None).
(** a configuration a layer can have *)
Definition admissible (c : config) : Prop := config_ok c /\ normalization_flag c <> Group_norm.
(** the arrays that hold values of the current pass, and what a reset writes to them *)
Definition scratch (k : fld) : Prop := ~ kept k /\ k <> Noise /\ k <> Noise_biases.
Definition mark (k : fld) : R := if decide (k = Dropout_mask \/ k = Dropout_temp) then 1%R else 0%R.
(** output o is fed by one of the last connections in the order of the scores *)
Definition chosen (c : config) (k : R) (ind : list nat) (o : nat) : Prop := ∃ i x, Z.to_nat (Int_part (INR (input c * output c) - INR (input c * output c) * k)) <= i /\ ind !! i = Some x /\ x / input c = o.
(** the connections edge popup uses after a reset *)
Definition edge_after (sort : vec -> list nat -> option (list nat)) (f r : fcl) : Prop :=
  let c := cfg f in
  (training_mode c <> Edge_popup -> active r = active f /\ indices r = indices f) /\
  (training_mode c = Edge_popup -> ∃ s ind act, arr f Scores = Some s /\ sort s (seq 0 (output c * input c)) = Some ind /\ indices r = Some ind /\ active r = Some act /\ length act = output c /\
     ∀ o, o < output c -> (act !! o = Some 1 /\ chosen c (k_percentage f) ind o) \/ (act !! o = Some 0 /\ ~ chosen c (k_percentage f) ind o)).
(** the layer normalization after a reset that keeps the partial derivatives, or does not *)
Definition norm_after (keep_derivatives : bool) (x x' : option bn) : Prop :=
  match x, x' with
  | Some b, Some b' => batch b' = batch b /\ vdim b' = vdim b /\ b_mode b' = b_mode b /\ b_arr b' Gamma = b_arr b Gamma /\ b_arr b' Beta = b_arr b Beta /\
      (∀ o, o <> o0 -> b_arr b' (DGamma o) = b_arr b (DGamma o) /\ b_arr b' (DBeta o) = b_arr b (DBeta o)) /\
      (∀ k, k = DGamma o0 \/ k = DBeta o0 -> b_arr b' k = if keep_derivatives then b_arr b k else Some (repeat 0%R (vdim b))) /\
      (∀ k, k = Mean \/ k = Var \/ (∃ m i, i < batch b /\ k = Row m i) -> b_arr b' k = Some (repeat 0%R (vdim b)))
  | None, None => True
  | _, _ => False
  end.
(** new noise: an outer product of signed roots of normal values *)
Definition new_noise (c : config) (g : nat -> R) (f : fcl) : Prop :=
  ∃ v b (xs : nat -> nat), arr f Noise = Some v /\ arr f Noise_biases = Some b /\ (∀ j, j < output c -> signed_root (g (S j)) (el b j)) /\
    (∀ i, i < input c -> ∃ r, signed_root (g (xs i)) r /\ ∀ j, j < output c -> el v (j * input c + i) = (r * el b j)%R).
