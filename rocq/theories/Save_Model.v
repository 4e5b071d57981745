(** Model of the binary save and load functions of the layers and of the networks made of them, on a little-endian host
    (convert_data is then the identity: C19_little_endian_identity).

    Every value written is 4 bytes long and fwrite/fread copy the bytes of memory, so a file is a list of 4-byte words; a word is
    named by the int that has its bytes, a float by the word of its bit pattern.  Equal words are thus equal bit for bit, NaNs
    included.  Every file operation but the ones below succeeds (the disk is not full, n >= 0).  exit(1) and undefined behaviour
    are [None].  Arrays are lists, a NULL array is [None]; sizes are exact (no int overflow in a product of sizes).  Only the
    configuration and the parameters of a layer are kept: its activations, gradients and optimizer moments are not saved. *)
From Verif Require Export Base.
Open Scope Z_scope.

Notation word := Z (only parsing).
Notation file := (list Z) (only parsing).
Notation arr := (option (list Z)) (only parsing).

(** * File operations *)
(** one i = fwrite(&x,4,1,fw) after another at the end of a file opened with "a+" *)
Definition fwrites (xs : list word) (w : file) : option file := Some (w ++ xs).
(** i = fwrite(a,4*n,1,fw); if(i != 1) exit(1): a size of 0 makes fwrite return 0 *)
Definition fwrite (a : arr) (n : Z) (w : file) : option file :=
  l ← a; if decide (0 < n /\ n <= Z.of_nat (length l)) then Some (w ++ take (Z.to_nat n) l) else None.
(** i = fread(&x,4,1,fr); if(i != 1) exit(1) *)
Definition fread1 (w : file) : option (word * file) := match w with [] => None | x :: w => Some (x, w) end.
(** i = fread(a,4*n,1,fr); if(i != 1) exit(1), a freshly allocated with n words *)
Definition fread (n : Z) (w : file) : option (list word * file) :=
  if decide (0 < n /\ n <= Z.of_nat (length w)) then Some (take (Z.to_nat n) w, drop (Z.to_nat n) w) else None.
(** for(i = 0; i < n; i++) save(a[i]) and for(i = 0; i < n; i++) a[i] = load(fr) *)
Definition save_all {A} (n : Z) (l : list A) (save : A -> file -> option file) (w : file) : option file :=
  for_loop (Z.to_nat n) 0 (fun i w => x ← rd l i; save x w) w.
Definition load_all {A} (n : Z) (load : file -> option (A * file)) (w : file) : option (list A * file) :=
  for_loop (Z.to_nat n) 0 (fun _ s => '(x, w) ← load s.2; Some (s.1 ++ [x], w)) ([], w).

(** utils.c:614-630 copy_array, copy_int_array: memcpy(dst,src,4*n) *)
Definition copy_array (src dst : list word) (n : Z) : option (list word) :=
  for_loop (Z.to_nat n) 0 (fun i d => x ← rd src i; wr d i x) dst.
(** the same on pointers; the result is the new content of dst.  A NULL pointer makes it do nothing *)
Definition copyp (src dst : arr) (n : Z) : option arr :=
  match src, dst with Some s, Some d => d ← copy_array s d n; Some (Some d) | _, _ => Some dst end.

(** * Constants of llab.h *)
Definition NO_ACTIVATION := 0. Definition SIGMOID := 1. Definition RELU := 2. Definition SOFTMAX := 3. Definition TANH := 4.
Definition LEAKY_RELU := 5. Definition ELU := 6.
Definition NO_POOLING := 0. Definition MAX_POOLING := 1. Definition AVERAGE_POOLING := 2.
Definition NO_DROPOUT := 0. Definition DROPOUT := 1. Definition DROPOUT_TEST := 2.
Definition NO_NORMALIZATION := 0. Definition LOCAL_RESPONSE_NORMALIZATION := 1. Definition BATCH_NORMALIZATION := 2.
Definition GROUP_NORMALIZATION := 3. Definition LAYER_NORMALIZATION := 4. Definition SCALED_L2_NORMALIZATION := 5.
Definition NO_CONVOLUTION := 1. Definition CONVOLUTION := 2. Definition TRANSPOSED_CONVOLUTION := 3.
Definition GRADIENT_DESCENT := 1. Definition EDGE_POPUP := 2. Definition FULLY_FEED_FORWARD := 3. Definition FREEZE_TRAINING := 4.
Definition FREEZE_BIASES := 5. Definition ONLY_FF := 6. Definition ONLY_DROPOUT := 5.
Definition STANDARD := 0. Definition NOISY := 1. Definition LSTM_RESIDUAL := 1.
(** the bit patterns of 0.0f and 1.0f *)
Definition f0 : word := 0. Definition f1 : word := 1065353216.
(** a > b on the floats of these patterns (taken as ints): false if one is a NaN; negative patterns are - 2^31 + magnitude *)
Definition magnitude (x : word) : Z := if decide (0 <= x) then x else x + 2147483648.
Definition order (x : word) : Z := if decide (0 <= x) then x else - (x + 2147483648).
Definition float_gt (a b : word) : bool :=
  bool_decide (magnitude a <= 2139095040) && bool_decide (magnitude b <= 2139095040) && bool_decide (order a > order b).
(** x > 1 || x < 0 *)
Definition out_of_01 (x : word) : bool := float_gt x f1 || float_gt f0 x.

(** a fresh array of n words *)
Definition fresh_arr (n : Z) (x : word) : list word := replicate (Z.to_nat n) x.
Definition fresh_rnd (n : Z) (rnd : nat -> word) : list word := rnd <$> seq 0 (Z.to_nat n).

(** * Normalization layers: batch_norm_layers.c *)
Record bn := Bn { b_batch : Z; b_dim : Z; b_gamma : list word; b_beta : list word }.
(** batch_norm_layers.c:36-84 batch_normalization *)
Definition batch_normalization (batch dim : Z) : option bn :=
  if decide (batch <= 0 \/ dim < 1) then None else Some (Bn batch dim (fresh_arr dim f1) (fresh_arr dim f0)).
(** batch_norm_layers.c:265-320 save_bn *)
Definition save_bn (b : bn) (w : file) : option file :=
  w ← fwrites [b_batch b; b_dim b] w; w ← fwrite (Some (b_gamma b)) (b_dim b) w; fwrite (Some (b_beta b)) (b_dim b) w.
(** batch_norm_layers.c:330-385 load_bn *)
Definition load_bn (w : file) : option (bn * file) :=
  '(batch, w) ← fread1 w; '(dim, w) ← fread1 w; '(gamma, w) ← fread dim w; '(beta, w) ← fread dim w;
  b ← batch_normalization batch dim;
  g ← copy_array gamma (b_gamma b) dim; be ← copy_array beta (b_beta b) dim; Some (Bn (b_batch b) (b_dim b) g be, w).
(** batch_norm_layers.c:601-618 paste_bn, on the parameters; b2 is the result *)
Definition paste_bn (b1 b2 : bn) : option bn :=
  g ← copy_array (b_gamma b1) (b_gamma b2) (b_dim b1); be ← copy_array (b_beta b1) (b_beta b2) (b_dim b1);
  Some (Bn (b_batch b2) (b_dim b2) g be).

(** * Fully connected layers: fully_connected_layers.c *)
(** the arguments of fully_connected, as stored in the structure *)
Record fcfg := Fcfg { f_in : Z; f_out : Z; f_layer : Z; f_drop : Z; f_act : Z; f_thr : word; f_groups : Z; f_norm : Z; f_train : Z;
                      f_ff : Z; f_mode : Z }.
Record fcl := Fcl { f_cfg : fcfg; f_k : word; f_w : arr; f_b : arr; f_active : arr; f_nw : arr; f_nb : arr; f_scores : arr; f_indices : arr;
                    f_ln : option bn }.
(** fully_connected_layers.c:44-100 the checks of fully_connected; true when it exits *)
Definition fcl_rejected (c : fcfg) : bool :=
  bool_decide (f_in c <= 0 \/ f_out c <= 0 \/ f_layer c < 0 \/ f_in c * f_out c <= 0)
  || bool_decide (f_drop c ∉ [NO_DROPOUT; DROPOUT; DROPOUT_TEST])
  || bool_decide (f_act c ∉ [NO_ACTIVATION; SIGMOID; TANH; RELU; SOFTMAX; LEAKY_RELU; ELU])
  || out_of_01 (f_thr c)
  || bool_decide (f_train c ∉ [EDGE_POPUP; FREEZE_TRAINING; GRADIENT_DESCENT; ONLY_FF])
  || bool_decide (f_ff c ∉ [FULLY_FEED_FORWARD; EDGE_POPUP])
  || bool_decide (f_norm c ∉ [GROUP_NORMALIZATION; LAYER_NORMALIZATION; LOCAL_RESPONSE_NORMALIZATION; NO_NORMALIZATION])
  || (let norm := if decide (f_norm c = GROUP_NORMALIZATION) then LAYER_NORMALIZATION else f_norm c in
      bool_decide (norm = LAYER_NORMALIZATION /\ (f_groups c <= 0 \/ f_out c <= f_groups c \/ Z.rem (f_out c) (f_groups c) <> 0))
      || bool_decide (norm <> NO_NORMALIZATION /\ f_drop c <> NO_DROPOUT)
      || bool_decide ((f_ff c = EDGE_POPUP \/ f_train c = EDGE_POPUP) /\ norm = LAYER_NORMALIZATION))
  || bool_decide (f_mode c <> STANDARD /\ f_mode c <> NOISY).
(** fully_connected_layers.c:664 exists_edge_popup_stuff_fcl *)
Definition fcl_edge (c : fcfg) : bool :=
  bool_decide (f_ff c <> ONLY_DROPOUT) && (bool_decide (f_ff c = EDGE_POPUP) || bool_decide (f_train c = EDGE_POPUP)).
(** fully_connected_layers.c:43-298 fully_connected: rnd gives the initial weights, nz the initial noisy weights (both depend on the
    flags and on rand()) *)
Definition fully_connected (rnd nz : nat -> word) (c : fcfg) : option fcl :=
  if fcl_rejected c then None else
  let c := Fcfg (f_in c) (f_out c) (f_layer c) (f_drop c) (f_act c) (f_thr c) (f_groups c)
                (if decide (f_norm c = GROUP_NORMALIZATION) then LAYER_NORMALIZATION else f_norm c) (f_train c) (f_ff c) (f_mode c) in
  let n := f_in c * f_out c in
  let params := bool_decide (f_ff c <> ONLY_DROPOUT) in
  let noisy := params && bool_decide (f_mode c = NOISY) in
  let when (b : bool) (l : list word) : arr := if b then Some l else None in
  ln ← (if decide (f_norm c = LAYER_NORMALIZATION) then b ← batch_normalization (f_groups c) (Z.quot (f_out c) (f_groups c)); Some (Some b)
        else Some None);
  Some (Fcl c f1 (when params (fresh_rnd n rnd)) (when params (fresh_arr (f_out c) f0)) (when params (fresh_arr (f_out c) 1))
            (when noisy (fresh_rnd n nz)) (when noisy (fresh_arr (f_out c) f0))
            (when (fcl_edge c) (fresh_arr n f0)) (when (fcl_edge c) (Z.of_nat <$> seq 0 (Z.to_nat n))) ln).
(** fully_connected_layers.c:820-988 save_fcl *)
Definition save_fcl (f : fcl) (w : file) : option file :=
  let c := f_cfg f in
  w ← fwrites [f_mode c; f_groups c; f_norm c; f_ff c; f_train c; f_in c; f_out c; f_layer c; f_drop c; f_act c; f_thr c] w;
  w ← (if bool_decide (f_ff c <> ONLY_DROPOUT) then
         w ← fwrite (f_w f) (f_in c * f_out c) w; w ← fwrite (f_b f) (f_out c) w; fwrite (f_active f) (f_out c) w
       else Some w);
  w ← (if bool_decide (f_mode c = NOISY) then w ← fwrite (f_nw f) (f_in c * f_out c) w; fwrite (f_nb f) (f_out c) w else Some w);
  w ← (if fcl_edge c then w ← fwrite (f_scores f) (f_out c * f_in c) w; fwrite (f_indices f) (f_out c * f_in c) w else Some w);
  if bool_decide (f_norm c = LAYER_NORMALIZATION) then match f_ln f with Some b => save_bn b w | None => Some w end else Some w.
(** fully_connected_layers.c:1002-1011 copy_fcl_params *)
Definition copy_fcl_params (f : fcl) (weights nw nb biases : arr) : option fcl :=
  let c := f_cfg f in
  p ← (if bool_decide (f_ff c <> ONLY_DROPOUT) then
         a ← copyp weights (f_w f) (f_in c * f_out c); b ← copyp biases (f_b f) (f_out c); Some (a, b)
       else Some (f_w f, f_b f));
  q ← (if bool_decide (f_mode c = NOISY) then a ← copyp nw (f_nw f) (f_in c * f_out c); b ← copyp nb (f_nb f) (f_out c); Some (a, b)
       else Some (f_nw f, f_nb f));
  Some (Fcl c (f_k f) p.1 p.2 (f_active f) q.1 q.2 (f_scores f) (f_indices f) (f_ln f)).
(** fread into an array allocated only when the layer has parameters *)
Definition freadp (alloc : bool) (n : Z) (w : file) : option (arr * file) :=
  if alloc then '(a, w) ← fread n w; Some (Some a, w) else None.
(** fully_connected_layers.c:1021-1210 load_fcl.  The noisy arrays are allocated only when the layer has parameters (1115-1123) *)
Definition load_fcl (rnd nz : nat -> word) (w : file) : option (fcl * file) :=
  '(mode, w) ← fread1 w; '(groups, w) ← fread1 w; '(norm, w) ← fread1 w; '(ff, w) ← fread1 w; '(train, w) ← fread1 w;
  '(input, w) ← fread1 w; '(output, w) ← fread1 w; '(layer, w) ← fread1 w; '(drop, w) ← fread1 w; '(act, w) ← fread1 w;
  '(thr, w) ← fread1 w;
  let params := bool_decide (ff <> ONLY_DROPOUT) in
  let edge := params && (bool_decide (ff = EDGE_POPUP) || bool_decide (train = EDGE_POPUP)) in
  '(p, w) ← (if params then
               '(a, w) ← freadp true (input * output) w; '(b, w) ← freadp true output w; '(c, w) ← freadp true output w;
               Some ((a, b, c), w)
             else Some ((None, None, None), w));
  '(q, w) ← (if bool_decide (mode = NOISY) then
               '(a, w) ← freadp params (input * output) w; '(b, w) ← freadp params output w; Some ((a, b), w)
             else Some ((None, None), w));
  '(e, w) ← (if edge then '(a, w) ← freadp true (output * input) w; '(b, w) ← freadp true (output * input) w; Some ((a, b), w)
             else Some ((None, None), w));
  f ← fully_connected rnd nz (Fcfg input output layer drop act thr groups norm train ff mode);
  f ← copy_fcl_params f p.1.1 q.1 q.2 p.1.2;
  s ← (if fcl_edge (f_cfg f) then a ← copyp e.1 (f_scores f) (input * output); b ← copyp e.2 (f_indices f) (input * output); Some (a, b)
       else Some (f_scores f, f_indices f));
  act ← (if bool_decide (f_ff (f_cfg f) <> ONLY_DROPOUT) then copyp p.2 (f_active f) output else Some (f_active f));
  let f := Fcl (f_cfg f) (f_k f) (f_w f) (f_b f) act (f_nw f) (f_nb f) s.1 s.2 (f_ln f) in
  if bool_decide (norm = LAYER_NORMALIZATION) then
    '(b, w) ← load_bn w; d ← f_ln f; d ← paste_bn b d;
    Some (Fcl (f_cfg f) (f_k f) (f_w f) (f_b f) (f_active f) (f_nw f) (f_nb f) (f_scores f) (f_indices f) (Some d), w)
  else Some (f, w).
(** fully_connected_layers.c:2496-2507 set_fcl_only_dropout *)
Definition set_fcl_only_dropout (f : fcl) : option fcl :=
  let c := f_cfg f in
  if decide (f_drop c = 0 \/ f_in c <> f_out c) then None else
  Some (Fcl (Fcfg (f_in c) (f_out c) (f_layer c) (f_drop c) (f_act c) (f_thr c) (f_groups c) (f_norm c) (f_train c) ONLY_DROPOUT (f_mode c))
            (f_k f) (f_w f) (f_b f) (f_active f) (f_nw f) (f_nb f) (f_scores f) (f_indices f) (f_ln f)).

(** * Convolutional layers: convolutional_layers.c *)
(** the arguments of convolutional *)
Record ccfg := Ccfg { c_channels : Z; c_irows : Z; c_icols : Z; c_krows : Z; c_kcols : Z; c_n : Z; c_s1r : Z; c_s1c : Z; c_p1r : Z; c_p1c : Z;
                      c_s2r : Z; c_s2c : Z; c_p2r : Z; c_p2c : Z; c_plr : Z; c_plc : Z; c_norm : Z; c_act : Z; c_pool : Z; c_gchan : Z;
                      c_conv : Z; c_train : Z; c_ff : Z; c_layer : Z }.
(** rows1, cols1, rows2, cols2 *)
Record cdim := Cdim { c_rows1 : Z; c_cols1 : Z; c_rows2 : Z; c_cols2 : Z }.
Record cl := Cl { c_cfg : ccfg; c_dim : cdim; c_k : word; c_kernels : option (list (list word)); c_biases : arr; c_scores : arr;
                  c_indices : arr; c_used : list word; c_group : option (list bn) }.
Definition ksize (c : ccfg) : Z := c_channels c * c_krows c * c_kcols c.
(** convolutional_layers.c:943 exists_edge_popup_stuff_cl *)
Definition cl_edge (c : ccfg) : bool :=
  bool_decide (c_conv c <> NO_CONVOLUTION) && (bool_decide (c_ff c = EDGE_POPUP) || bool_decide (c_train c = EDGE_POPUP)).
(** a % b and a / b: undefined when b = 0 *)
Definition rem (a b : Z) : option Z := if decide (b = 0) then None else Some (Z.rem a b).
Definition quot (a b : Z) : option Z := if decide (b = 0) then None else Some (Z.quot a b).
Definition reject (b : bool) : option unit := if b then None else Some tt.
(** convolutional_layers.c:59-164 the checks of convolutional *)
Definition cl_checks (c : ccfg) : option unit :=
  _ ← reject (bool_decide (c_gchan c < 0 \/ c_gchan c > c_n c \/ c_channels c <= 0 \/ c_irows c <= 0 \/ c_icols c <= 0 \/ c_krows c <= 0
                \/ c_kcols c <= 0 \/ c_n c <= 0 \/ c_s1r c <= 0 \/ c_s1c c <= 0 \/ (c_pool c <> 0 /\ (c_s2r c <= 0 \/ c_s2c c <= 0))));
  _ ← reject (bool_decide (c_p1r c <> c_p1c c \/ c_p2r c <> c_p2c c));
  _ ← reject (bool_decide (c_p1r c <> 0 /\ c_norm c = BATCH_NORMALIZATION));
  _ ← reject (bool_decide (c_conv c = NO_CONVOLUTION /\ c_pool c = NO_POOLING));
  _ ← reject (bool_decide (c_conv c = NO_CONVOLUTION /\ c_n c <> c_channels c));
  _ ← (if bool_decide (c_conv c <> NO_CONVOLUTION /\ c_norm c = GROUP_NORMALIZATION) then
         r ← rem (c_n c) (c_gchan c); reject (bool_decide (r <> 0)) else Some tt);
  _ ← reject (bool_decide (c_conv c = NO_CONVOLUTION /\ c_norm c <> 0));
  _ ← (if bool_decide (c_conv c = CONVOLUTION) then
         r ← rem (c_irows c - c_krows c) (c_s1r c);
         _ ← (if bool_decide (r <> 0) then None else s ← rem (c_icols c - c_kcols c) (c_s1c c); reject (bool_decide (s <> 0)));
         if bool_decide (c_pool c = MAX_POOLING \/ c_pool c = AVERAGE_POOLING) then
           q ← quot (c_irows c - c_krows c) (c_s1r c);
           r ← rem ((q + 1 + 2 * c_p1r c) - c_plr c) (c_s2r c); _ ← reject (bool_decide (r <> 0));
           q ← quot (c_icols c - c_kcols c) (c_s1c c);
           r ← rem ((q + 1 + 2 * c_p1c c) - c_plc c) (c_s2c c); reject (bool_decide (r <> 0))
         else Some tt
       else if bool_decide (c_conv c = TRANSPOSED_CONVOLUTION) then
         reject (bool_decide ((c_irows c - 1) * c_s1r c + c_krows c - 2 * c_p1r c <= 0))
       else if bool_decide (c_conv c = NO_CONVOLUTION) then
         r ← rem (c_irows c - c_plr c) (c_s2r c);
         if bool_decide (r <> 0) then None else s ← rem (c_icols c - c_plc c) (c_s2c c); reject (bool_decide (s <> 0))
       else Some tt);
  _ ← reject (bool_decide (c_norm c ∉ [NO_NORMALIZATION; GROUP_NORMALIZATION; LOCAL_RESPONSE_NORMALIZATION]));
  _ ← reject (bool_decide (c_conv c ∉ [NO_CONVOLUTION; CONVOLUTION; TRANSPOSED_CONVOLUTION]));
  _ ← reject (bool_decide (c_act c ∉ [NO_ACTIVATION; SIGMOID; TANH; RELU; LEAKY_RELU; ELU]));
  _ ← reject (bool_decide (c_train c ∉ [EDGE_POPUP; FREEZE_TRAINING; GRADIENT_DESCENT; ONLY_FF]));
  _ ← reject (bool_decide (c_ff c ∉ [FULLY_FEED_FORWARD; EDGE_POPUP]));
  reject (bool_decide ((c_ff c = EDGE_POPUP \/ c_train c = EDGE_POPUP) /\ c_norm c = GROUP_NORMALIZATION)).
(** convolutional_layers.c:248-303 one of rows1, cols1 and one of rows2, cols2 (bool_is_real of an int is true); the divisions are made
    even without pooling *)
Definition dim1 (conv input kernel stride1 padding1 : Z) : option Z :=
  if bool_decide (conv = TRANSPOSED_CONVOLUTION) then Some ((input - 1) * stride1 + kernel - 2 * padding1)
  else q ← quot (input - kernel) stride1; Some (q + 1 + 2 * padding1).
Definition dim2 (conv d1 input pooling stride2 padding2 : Z) : option Z :=
  q ← quot ((if bool_decide (conv = NO_CONVOLUTION) then input else d1) - pooling) stride2; Some (q + 1 + 2 * padding2).
Definition cl_dims (c : ccfg) : option cdim :=
  r1 ← dim1 (c_conv c) (c_irows c) (c_krows c) (c_s1r c) (c_p1r c); r2 ← dim2 (c_conv c) r1 (c_irows c) (c_plr c) (c_s2r c) (c_p2r c);
  k1 ← dim1 (c_conv c) (c_icols c) (c_kcols c) (c_s1c c) (c_p1c c); k2 ← dim2 (c_conv c) k1 (c_icols c) (c_plc c) (c_s2c c) (c_p2c c);
  Some (Cdim r1 k1 r2 k2).
(** the size of each normalization layer, convolutional_layers.c:371-377 *)
Definition cl_group_size (c : ccfg) (d : cdim) : Z :=
  if bool_decide (c_conv c = CONVOLUTION) then c_rows1 d * c_cols1 d - 2 * c_p1r c - 2 * c_p1c c else c_rows1 d * c_cols1 d.
Definition no_group (c : ccfg) : ccfg :=
  Ccfg (c_channels c) (c_irows c) (c_icols c) (c_krows c) (c_kcols c) (c_n c) (c_s1r c) (c_s1c c) (c_p1r c) (c_p1c c) (c_s2r c) (c_s2c c)
       (c_p2r c) (c_p2c c) (c_plr c) (c_plc c) (c_norm c) (c_act c) (c_pool c) 0 (c_conv c) (c_train c) (c_ff c) (c_layer c).
(** convolutional_layers.c:58-381 convolutional: rnd k j is the initial weight j of kernel k.  The initial indices are arbitrary here *)
Definition convolutional (rnd : nat -> nat -> word) (ind : nat -> word) (c : ccfg) : option cl :=
  _ ← cl_checks c; d ← cl_dims c;
  let conv := bool_decide (c_conv c <> NO_CONVOLUTION) in
  g ← (if bool_decide (c_norm c <> GROUP_NORMALIZATION) then Some None else
       m ← quot (c_n c) (c_gchan c); b ← batch_normalization (c_gchan c) (cl_group_size c d); Some (Some (replicate (Z.to_nat m) b)));
  let c' := if bool_decide (c_norm c <> GROUP_NORMALIZATION) then no_group c else c in
  Some (Cl c' d f1 (if conv then Some ((fun k => fresh_rnd (ksize c) (rnd k)) <$> seq 0 (Z.to_nat (c_n c))) else None)
           (if conv then Some (fresh_arr (c_n c) f0) else None)
           (if cl_edge c then Some (fresh_arr (c_n c * ksize c) f0) else None)
           (if cl_edge c then Some (fresh_rnd (c_n c * ksize c) ind) else None)
           (fresh_arr (c_n c) 1) g).
(** convolutional_layers.c:1114-1394 save_cl *)
Definition save_cl (f : cl) (w : file) : option file :=
  let c := c_cfg f in let d := c_dim f in
  w ← fwrites [c_k f; c_ff c; c_train c; c_gchan c; c_conv c; c_channels c; c_irows c; c_icols c; c_layer c; c_krows c; c_kcols c; c_n c;
               c_s1r c; c_s1c c; c_p1r c; c_p1c c; c_s2r c; c_s2c c; c_p2r c; c_p2c c; c_plr c; c_plc c; c_norm c; c_act c; c_pool c;
               c_rows1 d; c_cols1 d; c_rows2 d; c_cols2 d] w;
  w ← (if bool_decide (c_conv c <> NO_CONVOLUTION) then
         ks ← c_kernels f; w ← save_all (c_n c) ks (fun k w => fwrite (Some k) (ksize c) w) w; fwrite (c_biases f) (c_n c) w
       else Some w);
  w ← (if cl_edge c then w ← fwrite (c_scores f) (c_n c * ksize c) w; fwrite (c_indices f) (c_n c * ksize c) w else Some w);
  w ← fwrite (Some (c_used f)) (c_n c) w;
  if bool_decide (c_norm c = GROUP_NORMALIZATION) then
    m ← quot (c_n c) (c_gchan c); g ← c_group f; save_all m g save_bn w
  else Some w.
(** convolutional_layers.c:1405-1415 copy_cl_params *)
Definition copy_cl_params (f : cl) (kernels : list (list word)) (biases : list word) : option cl :=
  let c := c_cfg f in
  ks ← c_kernels f;
  ks ← for_loop (Z.to_nat (c_n c)) 0 (fun i ks => s ← rd kernels i; d ← rd ks i; d ← copy_array s d (ksize c); wr ks i d) ks;
  b ← copyp (Some biases) (c_biases f) (c_n c);
  Some (Cl c (c_dim f) (c_k f) (Some ks) b (c_scores f) (c_indices f) (c_used f) (c_group f)).
(** convolutional_layers.c:1432-1753 load_cl *)
Definition load_cl (rnd : nat -> nat -> word) (ind : nat -> word) (w : file) : option (cl * file) :=
  '(k, w) ← fread1 w; '(ff, w) ← fread1 w; '(train, w) ← fread1 w; '(gchan, w) ← fread1 w; '(conv, w) ← fread1 w;
  '(channels, w) ← fread1 w; '(irows, w) ← fread1 w; '(icols, w) ← fread1 w; '(layer, w) ← fread1 w; '(krows, w) ← fread1 w;
  '(kcols, w) ← fread1 w; '(n, w) ← fread1 w; '(s1r, w) ← fread1 w; '(s1c, w) ← fread1 w; '(p1r, w) ← fread1 w; '(p1c, w) ← fread1 w;
  '(s2r, w) ← fread1 w; '(s2c, w) ← fread1 w; '(p2r, w) ← fread1 w; '(p2c, w) ← fread1 w; '(plr, w) ← fread1 w; '(plc, w) ← fread1 w;
  '(norm, w) ← fread1 w; '(act, w) ← fread1 w; '(pool, w) ← fread1 w;
  '(_, w) ← fread1 w; '(_, w) ← fread1 w; '(_, w) ← fread1 w; '(_, w) ← fread1 w;
  let c := Ccfg channels irows icols krows kcols n s1r s1c p1r p1c s2r s2c p2r p2c plr plc norm act pool gchan conv train ff layer in
  '(p, w) ← (if bool_decide (conv <> NO_CONVOLUTION) then
               '(ks, w) ← load_all n (fread (ksize c)) w; '(b, w) ← fread n w; Some ((ks, b), w)
             else Some (([], []), w));
  '(e, w) ← (if cl_edge c then '(s, w) ← fread (n * ksize c) w; '(i, w) ← fread (n * ksize c) w; Some ((s, i), w) else Some (([], []), w));
  '(used, w) ← fread n w;
  '(g, w) ← (if bool_decide (norm = GROUP_NORMALIZATION) then m ← quot n gchan; '(g, w) ← load_all m load_bn w; Some (Some g, w)
             else Some (None, w));
  f ← convolutional rnd ind c;
  f ← (if bool_decide (conv <> NO_CONVOLUTION) then copy_cl_params f p.1 p.2 else Some f);
  s ← (if cl_edge c then a ← copyp (Some e.1) (c_scores f) (n * ksize c); b ← copyp (Some e.2) (c_indices f) (n * ksize c); Some (a, b)
       else Some (c_scores f, c_indices f));
  u ← copy_array used (c_used f) n;
  Some (Cl (c_cfg f) (c_dim f) k (c_kernels f) (c_biases f) s.1 s.2 u (if bool_decide (norm = GROUP_NORMALIZATION) then g else c_group f), w).

(** * Residual layers: residual_layers.c *)
(** cl_output->activation_flag, channels, input_rows, input_cols, and the n_cl convolutional layers *)
Record rl := Rl { r_act : Z; r_channels : Z; r_rows : Z; r_cols : Z; r_cls : list cl }.
(** residual_layers.c:45-60 residual; NULL is [None] *)
Definition residual (channels rows cols : Z) (cls : list cl) : option rl :=
  if decide (channels <= 0 \/ rows <= 0 \/ cols <= 0 \/ cls = []) then None else Some (Rl RELU channels rows cols cls).
(** residual_layers.c:148-213 save_rl *)
Definition save_rl (r : rl) (w : file) : option file :=
  w ← fwrites [r_act r; r_channels r; r_rows r; r_cols r; Z.of_nat (length (r_cls r))] w;
  save_all (Z.of_nat (length (r_cls r))) (r_cls r) save_cl w.
(** residual_layers.c:221-271 load_rl; rnd i gives the initial weights of the i-th layer *)
Definition load_rl (rnd : nat -> nat -> word) (ind : nat -> word) (w : file) : option (rl * file) :=
  '(act, w) ← fread1 w; '(channels, w) ← fread1 w; '(rows, w) ← fread1 w; '(cols, w) ← fread1 w; '(n, w) ← fread1 w;
  '(cls, w) ← load_all n (load_cl rnd ind) w;
  r ← residual channels rows cols cls;
  Some (Rl act (r_channels r) (r_rows r) (r_cols r) (r_cls r), w).

(** * Networks: model.c *)
(** n_rl, n_cl, n_fcl are the lengths of the arrays, and an array of no layers is NULL *)
Record model := Model { m_layers : Z; m_rls : list rl; m_cls : list cl; m_fcls : list fcl }.
(** if(key(a[i]) > key(a[j])) swap, for every i < j: model.c:89-150 *)
Definition xsort {A} (key : A -> Z) (l : list A) : option (list A) :=
  for_loop (length l) 0 (fun i a =>
    for_loop (length l - S i) (S i) (fun j a => x ← rd a i; y ← rd a j; if decide (key x > key y) then a ← wr a i y; wr a j x else Some a) a) l.
(** the configuration of a residual layer *)
Record rcfg := Rcfg { rc_channels : Z; rc_rows : Z; rc_cols : Z; rc_cls : list (ccfg * cdim) }.
Definition cshape (f : cl) : ccfg * cdim := (c_cfg f, c_dim f).
Definition rshape (r : rl) : rcfg := Rcfg (r_channels r) (r_rows r) (r_cols r) (cshape <$> r_cls r).
(** the number of outputs of a convolutional layer *)
Definition cl_out (x : ccfg * cdim) : Z :=
  if decide (c_pool x.1 <> 0) then c_n x.1 * c_rows2 x.2 * c_cols2 x.2 else c_n x.1 * c_rows1 x.2 * c_cols1 x.2.
(** model.c:61-75: the output of the last layer of a residual layer is as large as its input *)
Definition rl_matches (r : rcfg) : bool :=
  match list.last (rc_cls r) with Some x => bool_decide (cl_out x = rc_channels r * rc_rows r * rc_cols r) | None => false end.
Definition rl_layers (r : rcfg) : list Z := (fun x => c_layer x.1) <$> rc_cls r.
(** model.c:113-126: no layer of a later residual layer lies between the first and the last one of an earlier one *)
Fixpoint overlap (rs : list rcfg) : bool :=
  match rs with
  | [] => false
  | r :: rs =>
    match head (rl_layers r), list.last (rl_layers r) with
    | Some lo, Some hi => existsb (fun r' => existsb (fun k => bool_decide (lo <= k /\ k <= hi)) (rl_layers r')) rs || overlap rs
    | _, _ => true
    end
  end.
(** all the layer indices, in the order of the loops *)
Definition all_layers (rs : list rcfg) (cs : list (ccfg * cdim)) (fs : list fcfg) : list Z :=
  concat (rl_layers <$> rs) ++ ((fun x => c_layer x.1) <$> cs) ++ (f_layer <$> fs).
(** model.c:155-186: k is the number of layers of index i, which also is the number of entries written in sla[i] (of size layers) *)
Definition sequential (layers : Z) (ls : list Z) : option Z :=
  for_loop (Z.to_nat layers) 0 (fun i position =>
    let k := Z.of_nat (length (filter (fun l => l = Z.of_nat i) ls)) in
    if decide (k > layers) then None else
    if decide (k = 0 /\ position + k <> layers) then None else Some (position + k)) 0.
(** model.c:268-300 a last convolutional layer that does nothing *)
Definition useless (x : ccfg * cdim) : bool :=
  bool_decide (c_pool x.1 <> 0 /\ c_conv x.1 = NO_CONVOLUTION /\ c_s2c x.1 = 1 /\ c_s2r x.1 = 1 /\ c_p2r x.1 = 0 /\ c_p2c x.1 = 0
               /\ c_plr x.1 = 1 /\ c_plc x.1 = 1).
(** model.c:262-325 the kind of the last layer, sla[layers-1][0]: residual, convolutional or fully connected *)
Definition is_last (layers : Z) (ls : list Z) : bool := bool_decide (layers - 1 ∈ ls).
(** model.c:112-310 everything network checks once the layers are sorted; 190-246: all the indices are different *)
Definition network_checks (layers : Z) (rs : list rcfg) (cs : list (ccfg * cdim)) (fs : list fcfg) : option unit :=
  _ ← reject (overlap rs); _ ← sequential layers (all_layers rs cs fs); _ ← reject (negb (bool_decide (NoDup (all_layers rs cs fs))));
  if is_last layers (concat (rl_layers <$> rs)) then Some tt
  else if is_last layers ((fun x => c_layer x.1) <$> cs) then x ← list.last cs; reject (useless x) else Some tt.
(** model.c:262-325 output_dimension *)
Definition output_dimension (m : model) : Z :=
  let rs := rshape <$> m_rls m in let cs := cshape <$> m_cls m in
  if is_last (m_layers m) (concat (rl_layers <$> rs)) then
    match list.last rs with Some r => rc_channels r * rc_rows r * rc_cols r | None => 0 end
  else if is_last (m_layers m) ((fun x => c_layer x.1) <$> cs) then match list.last cs with Some x => cl_out x | None => 0 end
  else match list.last (m_fcls m) with Some f => f_out (f_cfg f) | None => 0 end.
Definition cl_layer (f : cl) : Z := c_layer (c_cfg f).
(** rls[i]->cls[0]->layer *)
Definition rl_first (r : rl) : Z := match r_cls r with f :: _ => cl_layer f | [] => 0 end.
Definition fcl_layer (f : fcl) : Z := f_layer (f_cfg f).
(** model.c:43-327 network *)
Definition network (layers : Z) (rls : list rl) (cls : list cl) (fcls : list fcl) : option model :=
  _ ← reject (bool_decide (layers <= 0 \/ (rls = [] /\ cls = [] /\ fcls = [])));
  _ ← reject (negb (forallb rl_matches (rshape <$> rls)));
  rls ← mapM (fun r => cls ← xsort cl_layer (r_cls r); Some (Rl (r_act r) (r_channels r) (r_rows r) (r_cols r) cls)) rls;
  rls ← xsort rl_first rls; cls ← xsort cl_layer cls; fcls ← xsort fcl_layer fcls;
  _ ← network_checks layers (rshape <$> rls) (cshape <$> cls) (f_cfg <$> fcls);
  Some (Model layers rls cls fcls).
(** the random numbers used to build the layers of a network *)
Record rands := Rands { rd_w : nat -> word; rd_nz : nat -> word; rd_k : nat -> nat -> word; rd_ind : nat -> word }.
(** model.c:902-966 save_model *)
Definition model_header (m : model) : list word :=
  [m_layers m; Z.of_nat (length (m_rls m)); Z.of_nat (length (m_cls m)); Z.of_nat (length (m_fcls m))].
Definition save_layers (m : model) (w : file) : option file :=
  w ← save_all (Z.of_nat (length (m_rls m))) (m_rls m) save_rl w;
  w ← save_all (Z.of_nat (length (m_cls m))) (m_cls m) save_cl w;
  save_all (Z.of_nat (length (m_fcls m))) (m_fcls m) save_fcl w.
Definition save_model (m : model) (w : file) : option file := w ← fwrites (model_header m) w; save_layers m w.
(** model.c:977-1046 save_model_given_directory: the files are <directory>/n.bin and n.bin in the current directory *)
Definition save_model_given_directory (m : model) (dw w : file) : option (file * file) :=
  dw ← fwrites (model_header m) dw; w ← save_layers m w; Some (dw, w).
(** model.c:1146-1215 load_model_with_file_already_opened *)
Definition load_model_opened (r : rands) (w : file) : option (model * file) :=
  '(layers, w) ← fread1 w; '(n_rl, w) ← fread1 w; '(n_cl, w) ← fread1 w; '(n_fcl, w) ← fread1 w;
  '(rls, w) ← load_all n_rl (load_rl (rd_k r) (rd_ind r)) w;
  '(cls, w) ← load_all n_cl (load_cl (rd_k r) (rd_ind r)) w;
  '(fcls, w) ← load_all n_fcl (load_fcl (rd_w r) (rd_nz r)) w;
  m ← network layers rls cls fcls; Some (m, w).
(** model.c:1057-1137 load_model, of a file with this content *)
Definition load_model (r : rands) (w : file) : option model := fst <$> load_model_opened r w.
