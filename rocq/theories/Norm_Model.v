(** Model of src/normalization.c over exact reals (C: float).  float** arrays are lists of rows. *)
From Verif Require Import NumLib Attn_Model.
Open Scope nat_scope.

(** m[i][j] and m[i][j] = x on a float** *)
Definition mrd (m : list (list R)) (i j : nat) : option R := row ← rd m i; rd row j.
Definition mwr (m : list (list R)) (i j : nat) (x : R) : option (list (list R)) := row ← rd m i; row' ← wr row j x; wr m i row'.
Definition maddat (m : list (list R)) (i j : nat) (x : R) : option (list (list R)) := y ← mrd m i j; mwr m i j (y + x)%R.

(** normalization.c:201-207: accumulate the mean, divide at the last instance *)
Definition bn_mean (B : nat) (input : list (list R)) (N : nat) (mean : list R) : option (list R) :=
  for_loop B 0 (fun i => for_loop N 0 (fun j m =>
    x ← mrd input i j; m1 ← addat m j x;
    if decide (i = B - 1) then y ← rd m1 j; wr m1 j (y / INR B)%R else Some m1)) mean.
(** normalization.c:210-218: the same for the variance *)
Definition bn_var (B : nat) (input : list (list R)) (N : nat) (mean var : list R) : option (list R) :=
  for_loop B 0 (fun i => for_loop N 0 (fun j v =>
    x ← mrd input i j; mu ← rd mean j; let temp := (x - mu)%R in v1 ← addat v j (temp * temp)%R;
    if decide (i = B - 1) then y ← rd v1 j; wr v1 j (y / INR B)%R else Some v1)) var.
(** normalization.c:285-290 batch_normalization_feed_forward_second_step, also the body of 220-225; the state is
    (temp_vectors, outputs) *)
Definition bn_row (input : list (list R)) (N : nat) (gamma beta mean var : list R) (epsilon : R) (i : nat) (st : list (list R) * list (list R)) : option (list (list R) * list (list R)) :=
  for_loop N 0 (fun j st =>
    x ← mrd input i j; mu ← rd mean j; v ← rd var j; g ← rd gamma j; b ← rd beta j;
    let z := ((x - mu) / R_sqrt.sqrt (v + epsilon))%R in
    t ← mwr st.1 i j z; o ← mwr st.2 i j (z * g + b)%R; Some (t, o)) st.
(** normalization.c:197-227 batch_normalization_feed_forward; also 245-268 followed by 285-290 for every i.
    Returns mean, var, temp_vectors, outputs. *)
Definition batch_normalization_feed_forward (B : nat) (input temp : list (list R)) (N : nat) (gamma beta mean var : list R) (outputs : list (list R)) (epsilon : R)
  : option (list R * list R * list (list R) * list (list R)) :=
  mean ← bn_mean B input N mean;
  var ← bn_var B input N mean var;
  st ← for_loop B 0 (bn_row input N gamma beta mean var epsilon) (temp, outputs);
  Some (mean, var, st.1, st.2).

(** normalization.c:319-326 and 368-375: parameter errors.  State: gamma_error, beta_error, temp_vectors_error, temp_array *)
Record bn_err := BnErr { be_gamma : list R; be_beta : list R; be_temp : list (list R); be_array : list R }.
Definition bn_bp_first (B : nat) (input temp : list (list R)) (N : nat) (gamma mean : list R) (oerr : list (list R)) (e : bn_err) : option bn_err :=
  for_loop B 0 (fun i => for_loop N 0 (fun j e =>
    o ← mrd oerr i j; t ← mrd temp i j; x ← mrd input i j; mu ← rd mean j; g ← rd gamma j;
    ge ← addat (be_gamma e) j (o * t)%R; bb ← addat (be_beta e) j o;
    te ← mwr (be_temp e) i j (o * g)%R; ta ← addat (be_array e) j (x - mu)%R;
    Some (BnErr ge bb te ta))) e.
(** normalization.c:333 (i == j) and 335 (i != j): the factor of temp_vectors_error[j][z].  The divisions 2/batch_size (in
    333 only) and 3/2 are integer divisions in C *)
Definition bn_factor (B : nat) (same : bool) (xi xj mu v ta epsilon : R) : R :=
  let r := (1 - 1 / INR B)%R in
  if same then (r / R_sqrt.sqrt (v + epsilon) - ((xj - mu) * 2 * r * (xj - mu) - INR (2 / B) * (ta - xj + mu)) / (INR (2 * B) * (v + epsilon) ^ (3 / 2)))%R
  else (- (R_sqrt.sqrt (v + epsilon) / INR B) - ((xi - mu) * 2 * r * (xj - mu) - (2 / INR B) * (ta - xj + mu)) / (INR (2 * B) * (v + epsilon) ^ (3 / 2)))%R.
(** normalization.c:328-339: the input error *)
Definition bn_bp_second (B : nat) (input : list (list R)) (N : nat) (mean var : list R) (terr : list (list R)) (tarr : list R) (epsilon : R) (ierr : list (list R)) : option (list (list R)) :=
  for_loop B 0 (fun i => for_loop B 0 (fun j => for_loop N 0 (fun z ie =>
    te ← mrd terr j z; xi ← mrd input i z; xj ← mrd input j z; mu ← rd mean z; v ← rd var z; ta ← rd tarr z;
    maddat ie j z (te * bn_factor B (bool_decide (i = j)) xi xj mu v ta epsilon)%R))) ierr.
(** normalization.c:316-341 batch_normalization_back_prop *)
Definition batch_normalization_back_prop (B : nat) (input temp : list (list R)) (N : nat) (gamma mean var : list R) (oerr : list (list R)) (epsilon : R) (e : bn_err) (ierr : list (list R)) : option (bn_err * list (list R)) :=
  e' ← bn_bp_first B input temp N gamma mean oerr e;
  ie ← bn_bp_second B input N mean var (be_temp e') (be_array e') epsilon ierr;
  Some (e', ie).

(** the fields of struct bn used here *)
Record bn := Bn { bn_gamma : list R; bn_beta : list R; bn_mean_ : list R; bn_var_ : list R; bn_temp : list (list R); bn_outputs : list (list R); bn_epsilon : R }.
(** batch_norm_layers.c:503-527 reset_bn, the fields read here: mean, var, temp_vectors and outputs become 0 *)
Definition reset_bn (b : bn) : bn :=
  Bn (bn_gamma b) (bn_beta b) (map (fun _ => 0%R) (bn_mean_ b)) (map (fun _ => 0%R) (bn_var_ b)) (map (map (fun _ => 0%R)) (bn_temp b)) (map (map (fun _ => 0%R)) (bn_outputs b)) (bn_epsilon b).
(** math_functions.c:859-864 sum1D(input1,input2,output,size) with output == input2 *)
Definition sum1D_acc (a acc : list R) (size : nat) : option (list R) := for_loop size 0 (fun i acc => x ← rd a i; addat acc i x) acc.
(** normalization.c:429-460 batch_normalization_final_mean_variance; [input] is the dataset after shuffle_float_matrix.
    The call at 443 passes input_vectors, not &input_vectors[i].  None also stands for the exit(1) at 436-439.
    Simplification: the loop counter counts mini-batches; EPSILON is a parameter. *)
Definition batch_normalization_final_mean_variance (input : list (list R)) (n_vectors N mini : nat) (EPSILON : R) (b : bn) : option bn :=
  if decide (n_vectors mod mini <> 0) then None else
  st ← for_loop (n_vectors / mini) 0 (fun i (st : bn * (list R * list R)) =>
         let b := reset_bn st.1 in
         r ← batch_normalization_feed_forward mini input (bn_temp b) N (bn_gamma b) (bn_beta b) (bn_mean_ b) (bn_var_ b) (bn_outputs b) EPSILON;
         m ← sum1D_acc r.1.1.1 st.2.1 N; v ← sum1D_acc r.1.1.2 st.2.2 N;
         Some (Bn (bn_gamma b) (bn_beta b) r.1.1.1 r.1.1.2 r.1.2 r.2 (bn_epsilon b), (m, v))) (b, (replicate N 0%R, replicate N 0%R));
  p ← for_loop N 0 (fun i (p : list R * list R) =>
        x ← rd p.1 i; m ← wr p.1 i (x / INR (n_vectors / mini))%R;
        y ← rd p.2 i; v ← wr p.2 i (INR mini / INR (mini - 1) * y / INR (n_vectors / mini))%R; Some (m, v)) st.2;
  m ← copy_array p.1 0 (bn_mean_ st.1) 0 N; v ← copy_array p.2 0 (bn_var_ st.1) 0 N;
  Some (Bn (bn_gamma st.1) (bn_beta st.1) m v (bn_temp st.1) (bn_outputs st.1) (bn_epsilon st.1)).

(** the loop "for(i = 0, ii = 0; ii < batch_size; i++) if(used == NULL || used[i]){ body; ii++; }" of
    normalization.c:467-507; fuel batch_size + length used suffices (see used_loop_all) *)
Fixpoint used_loop {S : Type} (used : option (list bool)) (batch : nat) (body : nat -> nat -> S -> option S) (fuel i ii : nat) (s : S) : option S :=
  if decide (batch <= ii) then Some s else
  match fuel with
  | O => None
  | Datatypes.S f =>
    u ← match used with None => Some true | Some l => rd l i end;
    if (u : bool) then s' ← body i ii s; used_loop used batch body f (Datatypes.S i) (Datatypes.S ii) s'
    else used_loop used batch body f (Datatypes.S i) ii s
  end.
(** normalization.c:463-511 channel_normalization_feed_forward.  [off] is the offset of the pointers input_vectors and
    outputs into the arrays given (0, or i for the calls &tensor[i], &post_normalization[i]).
    Returns mean, var, temp_vectors, outputs. *)
Definition channel_normalization_feed_forward (batch : nat) (input : list R) (off : nat) (temp : list (list R)) (gamma beta mean var outputs : list R) (epsilon : R)
    (rows_pad cols_pad rows cols : nat) (used : option (list bool)) : option (list R * list R * list (list R) * list R) :=
  let fuel := batch + match used with None => 0 | Some l => length l end in
  let q j k := (j - rows_pad) * (cols - 2 * cols_pad) + k - cols_pad in
  let grid {S} (body : nat -> nat -> S -> option S) := for_loop (rows - rows_pad - rows_pad) rows_pad (fun j => for_loop (cols - cols_pad - cols_pad) cols_pad (body j)) in
  mean ← used_loop used batch (fun i ii => grid (fun j k m =>
           x ← rd input (off + (i * rows * cols + j * cols + k)); m1 ← addat m (q j k) x;
           if decide (ii = batch - 1) then y ← rd m1 (q j k); wr m1 (q j k) (y / INR batch)%R else Some m1)) fuel 0 0 mean;
  var ← used_loop used batch (fun i ii => grid (fun j k v =>
           x ← rd input (off + (i * rows * cols + j * cols + k)); mu ← rd mean (q j k); let t := (x - mu)%R in v1 ← addat v (q j k) (t * t)%R;
           if decide (ii = batch - 1) then y ← rd v1 (q j k); wr v1 (q j k) (y / INR batch)%R else Some v1)) fuel 0 0 var;
  st ← used_loop used batch (fun i ii => grid (fun j k (st : list (list R) * list R) =>
           x ← rd input (off + (i * rows * cols + j * cols + k)); mu ← rd mean (q j k); v ← rd var (q j k);
           g ← rd gamma (q j k); b ← rd beta (q j k);
           let z := ((x - mu) / R_sqrt.sqrt (v + epsilon))%R in
           t ← mwr st.1 i (q j k) z; o ← wr st.2 (off + (i * rows * cols + j * cols + k)) (z * g + b)%R; Some (t, o))) fuel 0 0 (temp, outputs);
  Some (mean, var, st.1, st.2).

(** normalization.c:591-597: how many unused channels are passed while [n] used ones are counted from channel k *)
Fixpoint gn_skip (used : list bool) (fuel k n : nat) : option nat :=
  match n with
  | O => Some 0
  | S n' => match fuel with
            | O => None
            | S f => u ← rd used k; if (u : bool) then gn_skip used f (S k) n' else s ← gn_skip used f (S k) n; Some (S s)
            end
  end.
(** normalization.c:588-605: the loop over the groups; state: bns and post_normalization *)
Fixpoint gn_loop (tensor : list R) (rows cols n_channels stride pad_i pad_j : nat) (used : list bool) (n_bns : nat) (fuel i j : nat) (bns : list bn) (post : list R) : option (list bn * list R) :=
  if decide (n_bns <= j) then Some (bns, post) else
  match fuel with
  | O => None
  | S f =>
    u ← rd used i;
    if (u : bool) then
      b ← rd bns j;
      r ← channel_normalization_feed_forward n_channels tensor i (bn_temp b) (bn_gamma b) (bn_beta b) (bn_mean_ b) (bn_var_ b) post (bn_epsilon b) pad_i pad_j rows cols (Some used);
      bns' ← wr bns j (Bn (bn_gamma b) (bn_beta b) r.1.1.1 r.1.1.2 r.1.2 (bn_outputs b) (bn_epsilon b));
      s ← gn_skip used (length used + n_channels) i n_channels;
      gn_loop tensor rows cols n_channels stride pad_i pad_j used n_bns f (i + s + stride) (S j) bns' r.2
    else gn_loop tensor rows cols n_channels stride pad_i pad_j used n_bns f (S i) j bns post
  end.
(** normalization.c:577-607 group_normalization_feed_forward (None also for the exit(1) at 583-586) *)
Definition group_normalization_feed_forward (tensor : list R) (tensor_c rows cols n_channels stride : nat) (bns : list bn) (pad_i pad_j : nat) (post : list R) (used : list bool) : option (list bn * list R) :=
  let n_ch := length (filter (fun b => b = true) (take tensor_c used)) in
  if decide (n_ch mod n_channels <> 0) then None else
  gn_loop tensor rows cols n_channels stride pad_i pad_j used ((n_ch - n_channels) / stride + 1) (length used + n_ch + 1) 0 0 bns post.

(** normalization.c:877-889 feed_forward_scaled_l2_norm; returns the norm and the output *)
Definition feed_forward_scaled_l2_norm (n : nat) (g : R) (input output : list R) : option (R * list R) :=
  sum ← sum_loop n (fun i => x ← rd input i; Some (x * x)%R) 0%R;
  let norm := R_sqrt.sqrt sum in
  o ← for_loop n 0 (fun i o => x ← rd input i; wr o i (x * g / norm)%R) output;
  Some (norm, o).
(** normalization.c:904-917 back_propagation_scaled_l2_norm; returns d_learned_g and input_error *)
Definition back_propagation_scaled_l2_norm (n : nat) (g dg norm : R) (input oerr ierr : list R) : option (R * list R) :=
  let quadratic_norm := (norm * norm)%R in let cubic_norm := (quadratic_norm * norm)%R in
  for_loop n 0 (fun i (st : R * list R) =>
    oi ← rd oerr i; xi ← rd input i;
    ie ← for_loop n 0 (fun j ie =>
           oj ← rd oerr j; xj ← rd input j;
           if decide (i = j) then addat ie i (g * oi * (quadratic_norm - xi * xi) / cubic_norm)%R
           else addat ie i (- (g * oj * (xi * xj) / cubic_norm))%R) st.2;
    Some (st.1 + oi * xi / norm, ie)%R) (dg, ierr).

(** normalization.c:56-67: walk down from index_ac until [h] used channels were met; [h] = (int)(n_constant/2) *)
Fixpoint lrn_low (used : list bool) (i low h : nat) : option nat :=
  match h, i with
  | O, _ => Some low
  | _, O => Some low
  | S h', S i' => u ← rd used i'; if (u : bool) then lrn_low used i' i' h' else lrn_low used i' low h
  end.
(** normalization.c:71-80: walk up *)
Fixpoint lrn_up (used : list bool) (depth : nat) (fuel i up h : nat) : option nat :=
  match h, fuel with
  | O, _ => Some up
  | _, O => Some up
  | S h', S f => if decide (i < depth) then u ← rd used i; if (u : bool) then lrn_up used depth f (S i) i h' else lrn_up used depth f (S i) up h else Some up
  end.
Definition lrn_bounds (used : list bool) (ac depth h : nat) : option (nat * nat) :=
  low ← (if decide (ac < h) then Some 0 else lrn_low used ac ac h);
  up ← (if decide (depth - 1 < ac + h) then Some (depth - 1) else lrn_up used depth depth (S ac) ac h);
  Some (low, up).
(** normalization.c:83-91: k + alpha * sum of squares of the used channels of the window at one pixel *)
Definition lrn_sum (tensor : list R) (used : list bool) (low up : nat) (at_ : nat -> nat) (alpha k : R) : option R :=
  s ← sum_loop (up + 1 - low) (fun d => u ← rd used (low + d); if (u : bool) then t ← rd tensor (at_ (low + d)); Some (t * t)%R else Some 0%R) 0%R;
  Some (k + alpha * s)%R.
(** normalization.c:47-93 local_response_normalization_feed_forward *)
Definition local_response_normalization_feed_forward (tensor output : list R) (ac ai aj depth rows cols h : nat) (beta alpha k : R) (used : list bool) : option (list R) :=
  let at_ c := c * rows * cols + ai * cols + aj in
  u ← rd used ac; if negb u then Some output else
  b ← lrn_bounds used ac depth h;
  s ← lrn_sum tensor used b.1 b.2 at_ alpha k;
  t ← rd tensor (at_ ac); wr output (at_ ac) (t / Rpower s beta)%R.
(** normalization.c:117-165 local_response_normalization_back_prop *)
Definition local_response_normalization_back_prop (tensor terr oerr : list R) (ac ai aj depth rows cols h : nat) (beta alpha k : R) (used : list bool) : option (list R) :=
  let at_ c := c * rows * cols + ai * cols + aj in
  u ← rd used ac; if negb u then Some terr else
  b ← lrn_bounds used ac depth h;
  s ← lrn_sum tensor used b.1 b.2 at_ alpha k;
  let sum := Rpower s beta in let temp := Rpower s (beta + 1) in
  for_loop (b.2 + 1 - b.1) b.1 (fun c te =>
    u ← rd used c; if negb u then Some te else
    oe ← rd oerr (at_ c); tc ← rd tensor (at_ c); ta ← rd tensor (at_ ac);
    if decide (c = ac) then addat te (at_ c) (oe * (1 / sum - (2 * beta * alpha * tc * tc) / temp))%R
    else addat te (at_ c) (oe * - ((2 * beta * alpha * tc * ta) / temp))%R) terr.
(** normalization.c:168-180 the loops over a fully connected layer *)
Definition local_response_normalization_feed_forward_fcl (input output : list R) (size h : nat) (beta alpha k : R) (used : list bool) : option (list R) :=
  for_loop size 0 (fun i o => local_response_normalization_feed_forward input o i 0 0 size 1 1 h beta alpha k used) output.
Definition local_response_normalization_back_prop_fcl (input ierr oerr : list R) (size h : nat) (beta alpha k : R) (used : list bool) : option (list R) :=
  for_loop size 0 (fun i e => local_response_normalization_back_prop input e oerr i 0 0 size 1 1 h beta alpha k used) ierr.

(** normalization.c:737-754 normalize_scores_among_fcl_layers and 756-773 normalize_scores_among_cl_layers, on the score
    array of the layer *)
Definition normalize_scores (scores : list R) (n : nat) : option (list R) :=
  mm ← for_loop n 0 (fun i (mm : R * R) => x ← rd scores i;
         Some (if decide (x < mm.1)%R then x else mm.1, if decide (x > mm.2)%R then x else mm.2)) (999999999, -99999999)%R;
  for_loop n 0 (fun i s => x ← rd s i; wr s i ((x - mm.1) / (mm.2 - mm.1))%R) scores.
