(** Model of the life cycle of a fully-connected layer and of its layer normalization: construction, copy, paste, reset, change of
    training mode (src/fully_connected_layers.c, src/batch_norm_layers.c, src/model.c).  The arrays of a structure are a map from
    field names to [option] of an array, [None] being NULL; the [float**] arrays of bn have one field for each row.  [None] as a
    result is exit(1), an access through NULL or outside an array.  Integers do not overflow; which activation function is used
    does not matter here, only whether there is one.  Arrays are values: sharing and freeing are not modelled. *)
From Verif Require Import NumLib Fn_Model.
From Verif Require Sort_Model.
From Coq Require Import Reals Lra.
Notation vec := (list R).
Open Scope nat_scope.

Section arrays.
  Context {K : Type} `{EqDecision K}.
  Definition arrays : Type := K -> option vec.
  Definition put (a : arrays) (k : K) (v : vec) : arrays := λ x, if decide (x = k) then Some v else a x.
  Definition drop_array (a : arrays) (k : K) : arrays := λ x, if decide (x = k) then None else a x.
  (** utils.c:614-617 copy_array(src,dst,n), which does nothing if one of the arrays is NULL, under a condition.  The tests for NULL
      around some of the calls are therefore redundant and left out. *)
  Record cstep := Cp { c_on : bool; c_key : K; c_cnt : nat }.
  Definition copy_step (src : arrays) (s : cstep) (dst : arrays) : option arrays :=
    if negb (c_on s) then Some dst
    else match src (c_key s), dst (c_key s) with
         | Some v, Some d => if decide (c_cnt s <= length v /\ c_cnt s <= length d) then Some (put dst (c_key s) (take (c_cnt s) v ++ drop (c_cnt s) d)) else None
         | _, _ => Some dst
         end.
  Fixpoint copies (src : arrays) (steps : list cstep) (dst : arrays) : option arrays :=
    match steps with [] => Some dst | s :: r => d ← copy_step src s dst; copies src r d end.
  (** [if(on) set_vector_with_value(val,key,cnt)] (utils.c:1141-1146), and with [guarded] [if(on && key != NULL) ...] *)
  Record fstep := Fl { f_on : bool; f_guarded : bool; f_key : K; f_cnt : nat; f_val : R }.
  Definition fill_step (s : fstep) (a : arrays) : option arrays :=
    if negb (f_on s) then Some a
    else match a (f_key s) with
         | None => if f_guarded s then Some a else None
         | Some v => if decide (f_cnt s <= length v) then Some (put a (f_key s) (repeat (f_val s) (f_cnt s) ++ drop (f_cnt s) v)) else None
         end.
  Fixpoint fills (steps : list fstep) (a : arrays) : option arrays :=
    match steps with [] => Some a | s :: r => a ← fill_step s a; fills r a end.
End arrays.
Arguments arrays : clear implicits.
Arguments cstep : clear implicits.
Arguments fstep : clear implicits.

Inductive ord := o0 | o1 | o2 | o3.
Inductive tmode := Edge_popup | Freeze | Gradient | Only_ff.
#[global] Instance tmode_eq : EqDecision tmode. Proof. solve_decision. Defined.

(** batch_norm_layers.c, fields of bn; [Row m i] is row i of the matrix m *)
Inductive mfld := Input_vectors | Temp_vectors | Error2_b | Temp1 | Outputs.
Inductive bfld := Gamma | DGamma (o : ord) | Beta | DBeta (o : ord) | Mean | Var | Temp2_b | Row (m : mfld) (i : nat).
#[global] Instance ord_eq : EqDecision ord. Proof. solve_decision. Defined.
#[global] Instance mfld_eq : EqDecision mfld. Proof. solve_decision. Defined.
#[global] Instance bfld_eq : EqDecision bfld. Proof. solve_decision. Defined.
Record bn := mk_bn { batch : nat; vdim : nat; b_mode : tmode; b_arr : arrays bfld }.
Definition zeros (n : nat) : vec := repeat 0%R n.
(** batch_norm_layers.c:35-83 batch_normalization *)
Definition batch_normalization (batch_size dim : nat) : option bn :=
  if decide (batch_size = 0 \/ dim = 0) then None else
  Some (mk_bn batch_size dim Gradient (λ k, match k with
    | Gamma => Some (repeat 1%R dim)
    | Row _ i => if decide (i < batch_size) then Some (zeros dim) else None
    | _ => Some (zeros dim) end)).
(** batch_norm_layers.c:601-618 paste_bn *)
Definition paste_bn_steps (n : nat) : list (cstep bfld) :=
  map (λ k, Cp true k n) [Gamma; DGamma o0; DGamma o1; DGamma o2; DGamma o3; Beta; DBeta o0; DBeta o1; DBeta o2; DBeta o3; DBeta o3].
Definition paste_bn (b1 b2 : bn) : option bn :=
  a ← copies (b_arr b1) (paste_bn_steps (vdim b1)) (b_arr b2); Some (mk_bn (batch b2) (vdim b2) (b_mode b2) a).
(** batch_norm_layers.c:458-475 copy_bn *)
Definition copy_bn (b : bn) : option bn :=
  c ← batch_normalization (batch b) (vdim b);
  a ← copies (b_arr b) (map (λ k, Cp true k (vdim b)) [Gamma; DGamma o0; DGamma o1; DGamma o2; DGamma o3; Beta; DBeta o0; DBeta o1; DBeta o2; DBeta o3]) (b_arr c);
  Some (mk_bn (batch c) (vdim c) (b_mode b) a).
(** batch_norm_layers.c:645-653 paste_w_bn *)
Definition paste_w_bn (b1 b2 : bn) : option bn :=
  a ← copies (b_arr b1) (map (λ k, Cp true k (vdim b1)) [Gamma; Beta]) (b_arr b2); Some (mk_bn (batch b2) (vdim b2) (b_mode b2) a).
(** batch_norm_layers.c:503-528 reset_bn and, without the two derivatives, 537-559 reset_bn_except_partial_derivatives *)
Definition row_fills (b : bn) : list (fstep bfld) :=
  flat_map (λ i, [Fl true false (Row Input_vectors i) (vdim b) 0%R; Fl true false (Row Temp_vectors i) (vdim b) 0%R; Fl true false (Row Outputs i) (vdim b) 0%R;
    Fl true true (Row Error2_b i) (vdim b) 0%R; Fl true true (Row Temp1 i) (vdim b) 0%R]) (seq 0 (batch b)).
Definition reset_bn (b : bn) : option bn :=
  a ← fills (row_fills b ++ [Fl true true (DGamma o0) (vdim b) 0%R; Fl true true (DBeta o0) (vdim b) 0%R; Fl true true Temp2_b (vdim b) 0%R;
    Fl true false Mean (vdim b) 0%R; Fl true false Var (vdim b) 0%R]) (b_arr b);
  Some (mk_bn (batch b) (vdim b) (b_mode b) a).
Definition reset_bn_except_partial_derivatives (b : bn) : option bn :=
  a ← fills (row_fills b ++ [Fl true true Temp2_b (vdim b) 0%R; Fl true false Mean (vdim b) 0%R; Fl true false Var (vdim b) 0%R]) (b_arr b);
  Some (mk_bn (batch b) (vdim b) (b_mode b) a).

(** fields of fcl of type float* *)
Inductive fld := Weights | Biases | Noisy_weights | Noisy_biases
  | DWeights (o : ord) | DBiases (o : ord) | DNoisy_weights (o : ord) | DNoisy_biases (o : ord) | Scores | DScores (o : ord)
  | Pre_activation | Post_activation | Post_normalization | Dropout_mask | Dropout_temp
  | Noise | Noise_biases | Temp_weights | Temp_biases | Temp | Temp2 | Temp3 | Error2.
#[global] Instance fld_eq : EqDecision fld. Proof. solve_decision. Defined.
Inductive ffmode := Fully | Edge_popup_ff | Only_dropout.
Inductive dropout := No_dropout | Dropout | Dropout_test.
Inductive norm := No_norm | Layer_norm | Local_response | Group_norm.
#[global] Instance ffmode_eq : EqDecision ffmode. Proof. solve_decision. Defined.
#[global] Instance dropout_eq : EqDecision dropout. Proof. solve_decision. Defined.
#[global] Instance norm_eq : EqDecision norm. Proof. solve_decision. Defined.
(** the arguments of the constructor, kept in the structure *)
Record config := mk_config { input : nat; output : nat; layer : nat; dropout_flag : dropout; activation : bool; dropout_threshold : R;
  n_groups : nat; normalization_flag : norm; training_mode : tmode; feed_forward_flag : ffmode; noisy : bool }.
Record fcl := mk_fcl { cfg : config; k_percentage : R; arr : arrays fld; active : option (list nat); indices : option (list nat); layer_norm : option bn }.

(** fully_connected_layers.c:648-676 is_noisy is the field; the exists_ functions *)
Definition exists_params (c : config) : bool := bool_decide (feed_forward_flag c <> Only_dropout).
Definition exists_d_params (c : config) : bool := bool_decide (feed_forward_flag c <> Only_dropout /\ training_mode c <> Edge_popup /\ training_mode c <> Only_ff).
Definition exists_dropout_stuff (c : config) : bool := bool_decide (dropout_flag c <> No_dropout).
Definition exists_edge_popup_stuff (c : config) : bool := bool_decide (feed_forward_flag c <> Only_dropout /\ (feed_forward_flag c = Edge_popup_ff \/ training_mode c = Edge_popup)).
Definition exists_activation (c : config) : bool := activation c && bool_decide (feed_forward_flag c <> Only_dropout).
Definition exists_normalization (c : config) : bool := bool_decide ((normalization_flag c = Layer_norm \/ normalization_flag c = Local_response) /\ feed_forward_flag c <> Only_dropout).

(** fully_connected_layers.c:43-293 fully_connected; [ws] are the random weights, [nw] the constant noisy weight, [g] the normal
    values drawn for the noise *)
Definition config_ok (c : config) : Prop :=
  0 < input c /\ 0 < output c /\ (0 <= dropout_threshold c <= 1)%R /\ feed_forward_flag c <> Only_dropout /\
  (normalization_flag c = Layer_norm -> 0 < n_groups c /\ n_groups c < output c /\ output c mod n_groups c = 0) /\
  (normalization_flag c <> No_norm -> dropout_flag c = No_dropout) /\
  ((feed_forward_flag c = Edge_popup_ff \/ training_mode c = Edge_popup) -> normalization_flag c <> Layer_norm).
#[global] Instance config_ok_dec c : Decision (config_ok c).
Proof. unfold config_ok. repeat (apply and_dec || apply impl_dec || apply Rle_dec); try apply _; unfold Decision; destruct (Rle_dec 0 (dropout_threshold c)), (Rle_dec (dropout_threshold c) 1); (left; lra) || (right; lra). Defined.
Definition fully_connected (c : config) (ws : nat -> R) (nw : R) (g : nat -> R) : option fcl :=
  let c := mk_config (input c) (output c) (layer c) (dropout_flag c) (activation c) (dropout_threshold c) (n_groups c)
    (if decide (normalization_flag c = Group_norm) then Layer_norm else normalization_flag c) (training_mode c) (feed_forward_flag c) (noisy c) in
  if decide (config_ok c) then
    let n := input c * output c in
    let d := bool_decide (training_mode c <> Edge_popup /\ training_mode c <> Only_ff) in
    let e := bool_decide (feed_forward_flag c = Edge_popup_ff \/ training_mode c = Edge_popup) in
    let alloc (on : bool) (v : vec) := if on then Some v else None in
    '(_, noise, noise_biases) ← set_factorised_noise g (input c) (output c) (zeros n) (zeros (output c));
    ln ← (if decide (normalization_flag c = Layer_norm) then b ← batch_normalization (n_groups c) (output c / n_groups c); Some (Some b) else Some None);
    Some (mk_fcl c 1%R (λ k, match k with
      | Weights => Some (map ws (seq 0 n))
      | Biases => Some (zeros (output c))
      | Noisy_weights => alloc (noisy c) (repeat nw n)
      | Noisy_biases => alloc (noisy c) (zeros (output c))
      | DWeights _ => alloc d (zeros n)
      | DBiases _ => alloc d (zeros (output c))
      | DNoisy_weights _ => alloc (d && noisy c) (zeros n)
      | DNoisy_biases _ => alloc (d && noisy c) (zeros (output c))
      | Scores => alloc e (zeros n)
      | DScores _ => alloc e (zeros n)
      | Pre_activation => Some (zeros (output c))
      | Post_activation => alloc (activation c) (zeros (output c))
      | Post_normalization => alloc (bool_decide (normalization_flag c = Layer_norm \/ normalization_flag c = Local_response)) (zeros (output c))
      | Dropout_mask => alloc (bool_decide (dropout_flag c <> No_dropout)) (repeat 1%R (output c))
      | Dropout_temp => alloc (bool_decide (dropout_flag c <> No_dropout)) (zeros (output c))
      | Noise => alloc (noisy c) noise
      | Noise_biases => alloc (noisy c) noise_biases
      | Temp_weights => alloc (noisy c) (zeros n)
      | Temp_biases => alloc (noisy c) (zeros (output c))
      | Temp | Temp3 => Some (zeros (output c))
      | Temp2 | Error2 => Some (zeros (input c))
      end) (Some (repeat 1 (output c))) (if e then Some (seq 0 n) else None) ln)
  else None.

(** utils.c:628-631 copy_int_array *)
Definition copy_ints (n : nat) (src dst : option (list nat)) : option (option (list nat)) :=
  match src, dst with
  | Some s, Some d => if decide (n <= length s /\ n <= length d) then Some (Some (take n s ++ drop n d)) else None
  | _, _ => Some dst
  end.

(** fully_connected_layers.c:1223-1292 copy_fcl *)
Definition param_steps (c : config) (nsy : bool) : list (cstep fld) := let n := output c * input c in
  [Cp true Weights n; Cp true Biases (output c); Cp nsy Noisy_weights n; Cp nsy Noisy_biases (output c)].
Definition d_steps (c : config) (on nsy : bool) : list (cstep fld) := let n := output c * input c in
  [Cp on (DWeights o0) n; Cp on (DWeights o1) n; Cp on (DWeights o2) n; Cp on (DWeights o3) n;
   Cp (on && nsy) (DNoisy_weights o0) n; Cp (on && nsy) (DNoisy_weights o1) n; Cp (on && nsy) (DNoisy_weights o2) n; Cp (on && nsy) (DNoisy_weights o3) n;
   Cp (on && nsy) (DNoisy_biases o0) (output c); Cp (on && nsy) (DNoisy_biases o1) (output c); Cp (on && nsy) (DNoisy_biases o2) (output c); Cp (on && nsy) (DNoisy_biases o3) (output c);
   Cp on (DBiases o0) (output c); Cp on (DBiases o1) (output c); Cp on (DBiases o2) (output c); Cp on (DBiases o3) (output c)].
Definition score_steps (c : config) (on : bool) : list (cstep fld) := let n := output c * input c in
  [Cp on Scores n; Cp on (DScores o0) n; Cp on (DScores o1) n; Cp on (DScores o2) n; Cp on (DScores o3) n].
Definition copy_fcl (f : fcl) (ws : nat -> R) (nw : R) (g : nat -> R) : option fcl :=
  let c := cfg f in let n := input c * output c in
  cp ← fully_connected c ws nw g;
  a ← copies (arr f) ((if exists_params c then param_steps c (noisy c) else []) ++ d_steps c (exists_d_params c) (noisy c) ++ score_steps c (exists_edge_popup_stuff c)) (arr cp);
  act ← (if exists_params c then copy_ints (output c) (active f) (active cp) else Some (active cp));
  ind ← (if exists_edge_popup_stuff c then copy_ints n (indices f) (indices cp) else Some (indices cp));
  ln ← (if decide (normalization_flag c = Layer_norm) then match layer_norm f, layer_norm cp with Some b1, Some b2 => b ← paste_bn b1 b2; Some (Some b) | _, _ => Some (layer_norm cp) end
        else Some (layer_norm cp));
  Some (mk_fcl (cfg cp) (k_percentage f) a act ind ln).

(** fully_connected_layers.c:1830-1902 paste_fcl *)
Definition paste_fcl (f cp : fcl) : option fcl :=
  let c := cfg f in let c2 := cfg cp in let n := output c * input c in
  if decide (output c <> output c2) then Some cp
  else if decide (n <> input c2 * output c2) then Some cp
  else
    let p := exists_params c && exists_params c2 in
    let d := exists_d_params c && exists_d_params c2 in
    let e := exists_edge_popup_stuff c && exists_edge_popup_stuff c2 in
    let nsy := noisy c && noisy c2 in
    a ← copies (arr f) ((if p then param_steps c nsy else []) ++ d_steps c d nsy ++ score_steps c e) (arr cp);
    act ← (if p then copy_ints (output c) (active f) (active cp) else Some (active cp));
    ind ← (if e then copy_ints n (indices f) (indices cp) else Some (indices cp));
    ln ← (if decide (normalization_flag c = Layer_norm /\ normalization_flag c2 = Layer_norm) then
            match layer_norm f, layer_norm cp with Some b1, Some b2 => b ← paste_bn b1 b2; Some (Some b) | _, _ => Some (layer_norm cp) end
          else Some (layer_norm cp));
    Some (mk_fcl c2 (k_percentage f) a act ind ln).

(** fully_connected_layers.c:1954-1974 paste_w_fcl *)
Definition paste_w_fcl (f cp : fcl) : option fcl :=
  let c := cfg f in let n := output c * input c in let e := exists_edge_popup_stuff c in
  a ← copies (arr f) ((if exists_params c then param_steps c (noisy c && noisy (cfg cp)) else []) ++ [Cp e Scores n]) (arr cp);
  ind ← (if e then copy_ints n (indices f) (indices cp) else Some (indices cp));
  act ← (if e then copy_ints (output c) (active f) (active cp) else Some (active cp));
  ln ← (if decide (normalization_flag c = Layer_norm) then match layer_norm f, layer_norm cp with Some b1, Some b2 => b ← paste_w_bn b1 b2; Some (Some b) | _, _ => Some (layer_norm cp) end
        else Some (layer_norm cp));
  Some (mk_fcl (cfg cp) (k_percentage cp) a act ind ln).

(** fully_connected_layers.c:2657-2684 get_used_outputs, with flag FCLS and used_output NULL; the conversion of the start of the loop
    to int is the integer part *)
Definition get_used_outputs (c : config) (k : R) (ind : list nat) : option (list nat) :=
  let n := input c * output c in
  let start := Z.to_nat (Int_part (INR n - INR n * k)) in
  for_loop (n - start) start (λ i uo, x ← rd ind i; wr uo (x / input c) 1) (repeat 0 (output c)).

(** utils.c:1100-1105 sort(scores,indices,0,n-1) with the merge_sort of Sort_Model: the scores are converted to int, which is
    modelled as rounding toward zero without overflow *)
Definition sort_scores (scores : vec) (indices : list nat) : option (list nat) :=
  Sort_Model.sort_array 1 (map (λ x, if decide (0 <= x)%R then Int_part x else (- Int_part (- x))%Z) scores) indices.

Section resets.
  (** utils.c:1100-1105 sort(scores,indices,0,n-1), the new indices *)
  Context (sort : vec -> list nat -> option (list nat)).
  (** the part common to the resets: activations and dropout arrays *)
  Definition ff_fills (c : config) (guarded : bool) (temp : R) : list (fstep fld) :=
    [Fl (exists_params c) false Pre_activation (output c) 0%R; Fl (exists_activation c) false Post_activation (output c) 0%R;
     Fl (exists_normalization c) false Post_normalization (output c) 0%R;
     Fl (exists_dropout_stuff c) guarded Dropout_mask (output c) 1%R; Fl (exists_dropout_stuff c) guarded Dropout_temp (output c) temp].
  Definition temp_fills (c : config) : list (fstep fld) :=
    [Fl true false Temp (output c) 0%R; Fl true false Temp3 (output c) 0%R; Fl true false Temp2 (input c) 0%R; Fl true false Error2 (input c) 0%R].
  Definition d_fills (c : config) : list (fstep fld) :=
    [Fl (exists_d_params c) false (DWeights o0) (input c * output c) 0%R;
     Fl (exists_d_params c && noisy c) true (DNoisy_weights o0) (input c * output c) 0%R; Fl (exists_d_params c && noisy c) false (DNoisy_biases o0) (output c) 0%R].
  (** new noise; with [guarded] only if both arrays exist *)
  Definition renew_noise (c : config) (g : nat -> R) (guarded : bool) (a : arrays fld) : option (arrays fld) :=
    if noisy c then
      a ← match a Noise, a Noise_biases with
          | Some v, Some b => '(_, v, b) ← set_factorised_noise g (input c) (output c) v b; Some (put (put a Noise v) Noise_biases b)
          | _, _ => if guarded then Some a else None
          end;
      fills [Fl true false Temp_weights (input c * output c) 0%R; Fl true false Temp_biases (output c) 0%R] a
    else Some a.
  Definition reset_norm (c : config) (r : bn -> option bn) (ln : option bn) : option (option bn) :=
    if decide (normalization_flag c = Layer_norm) then match ln with Some b => b ← r b; Some (Some b) | None => Some None end else Some ln.
  (** the edge popup part of reset_fcl (1398-1406) and reset_fcl_without_dwdb (1597-1605) *)
  Definition reset_edge (f : fcl) (a : arrays fld) : option (arrays fld * option (list nat) * option (list nat)) :=
    let c := cfg f in let n := output c * input c in
    if decide (training_mode c = Edge_popup) then
      ind ← indices f;
      if decide (n <= length ind) then
        a ← fills [Fl true false (DScores o0) n 0%R] a;
        s ← a Scores;
        ind ← sort s (seq 0 n ++ drop n ind);
        act ← get_used_outputs c (k_percentage f) ind;
        Some (a, Some act, Some ind)
      else None
    else Some (a, active f, indices f).
  (** fully_connected_layers.c:1359-1411 reset_fcl *)
  Definition reset_fcl (f : fcl) (g : nat -> R) : option fcl :=
    let c := cfg f in
    a ← fills (ff_fills c true 1%R ++ [Fl (exists_d_params c) false (DBiases o0) (output c) 0%R]) (arr f);
    a ← renew_noise c g true a;
    a ← fills (temp_fills c ++ d_fills c) a;
    '(a, act, ind) ← reset_edge f a;
    ln ← reset_norm c reset_bn (layer_norm f);
    Some (mk_fcl c (k_percentage f) a act ind ln).
  (** fully_connected_layers.c:1424-1455 reset_fcl_only_for_ff *)
  Definition reset_fcl_only_for_ff (f : fcl) (g : nat -> R) : option fcl :=
    let c := cfg f in
    a ← fills (ff_fills c true 1%R) (arr f); a ← renew_noise c g true a;
    ln ← reset_norm c reset_bn (layer_norm f);
    Some (mk_fcl c (k_percentage f) a (active f) (indices f) ln).
  (** fully_connected_layers.c:1524-1558 reset_fcl_except_partial_derivatives *)
  Definition reset_fcl_except_partial_derivatives (f : fcl) (g : nat -> R) : option fcl :=
    let c := cfg f in
    a ← fills (ff_fills c true 1%R) (arr f); a ← renew_noise c g true a; a ← fills (temp_fills c) a;
    ln ← reset_norm c reset_bn_except_partial_derivatives (layer_norm f);
    Some (mk_fcl c (k_percentage f) a (active f) (indices f) ln).
  (** fully_connected_layers.c:1572-1610 reset_fcl_without_dwdb *)
  Definition reset_fcl_without_dwdb (f : fcl) (g : nat -> R) : option fcl :=
    let c := cfg f in
    a ← fills (ff_fills c false 1%R) (arr f); a ← renew_noise c g false a; a ← fills (temp_fills c) a;
    '(a, act, ind) ← reset_edge f a;
    ln ← reset_norm c reset_bn (layer_norm f);
    Some (mk_fcl c (k_percentage f) a act ind ln).
End resets.

Definition with_cfg (f : fcl) (k : R) (d : dropout) (thr : R) (t : tmode) (ff : ffmode) (a : arrays fld) : fcl :=
  let c := cfg f in
  mk_fcl (mk_config (input c) (output c) (layer c) d (activation c) thr (n_groups c) (normalization_flag c) t ff (noisy c)) k a (active f) (indices f) (layer_norm f).
(** model.c:9623-9648 set_model_training_edge_popup and 9656-9671 set_model_training_gd, for one fully-connected layer *)
Definition set_training_edge_popup (k : R) (f : fcl) : option fcl :=
  if decide (k < 0)%R then None else if decide (1 < k)%R then None
  else Some (with_cfg f k (dropout_flag (cfg f)) (dropout_threshold (cfg f)) Edge_popup Edge_popup_ff (arr f)).
Definition set_training_gd (f : fcl) : fcl := with_cfg f (k_percentage f) (dropout_flag (cfg f)) (dropout_threshold (cfg f)) Gradient (feed_forward_flag (cfg f)) (arr f).
(** fully_connected_layers.c:2723-2730 inference_fcl and 2765-2772 train_fcl *)
Definition inference_fcl (f : fcl) : fcl :=
  if decide (dropout_flag (cfg f) = Dropout) then with_cfg f (k_percentage f) Dropout_test (1 - dropout_threshold (cfg f))%R (training_mode (cfg f)) (feed_forward_flag (cfg f)) (arr f) else f.
Definition train_fcl (f : fcl) : fcl :=
  if decide (dropout_flag (cfg f) = Dropout_test) then with_cfg f (k_percentage f) Dropout (1 - dropout_threshold (cfg f))%R (training_mode (cfg f)) (feed_forward_flag (cfg f)) (arr f) else f.
(** fully_connected_layers.c:2688-2721 make_the_fcl_only_for_ff *)
Definition make_only_for_ff (f : fcl) : fcl :=
  let a := foldl drop_array (arr f) [DWeights o0; DWeights o1; DWeights o2; DWeights o3; DBiases o0; DBiases o1; DBiases o2; DBiases o3; Temp; Temp2; Temp3; Error2] in
  let f := with_cfg f (k_percentage f) (dropout_flag (cfg f)) (dropout_threshold (cfg f)) Only_ff (feed_forward_flag (cfg f)) a in
  if decide (dropout_flag (cfg f) = Dropout) then with_cfg f (k_percentage f) Dropout_test (1 - dropout_threshold (cfg f))%R Only_ff (feed_forward_flag (cfg f)) a else f.
