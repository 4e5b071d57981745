(** Model of src/clipping_gradient.c over exact reals (C: float / double).

    The layers of all networks live in one heap, so that the same layer can be reached through several pointers: a layer is an
    address and its configuration, [heap a nm] is the gradient array d_<nm> of the layer at address a ([] when NULL).  [None] is
    undefined behaviour. *)
From Coq Require Import R_sqrt.
From Verif Require Import NumLib Upd_Model.
Open Scope nat_scope.

Definition heap := nat -> name -> list R.
Definition hset (h : heap) (a : nat) (nm : name) (l : list R) : heap :=
  fun a' nm' => if decide (a' = a /\ nm' = nm) then l else h a' nm'.

(** struct fcl: address, the fields of Upd_Model.fcl, n_groups, feed_forward_flag == EDGE_POPUP *)
Record fnode := FN { f_at : nat; f_cfg : fcl; f_groups : nat; f_edge : bool }.
(** struct cl: address, the fields of Upd_Model.cl, feed_forward_flag == EDGE_POPUP.  The allocated gradient pointers are non-NULL *)
Record cnode := CN { c_at : nat; c_cfg : cl; c_edge : bool }.
(** struct lstm: address, the fields of Upd_Model.lstm and, with norm_flag == GROUP_NORMALIZATION, its window/n_grouped_cell
    normalization layers ([] otherwise) *)
Record lnode := LN { l_at : nat; l_cfg : lstm; l_bns : list bnl }.
(** struct scaled_l2_norm: address and training_mode == GRADIENT_DESCENT; d_learned_g is an array of one entry called Gamma 0 *)
Record snode := SN { s_at : nat; s_train : bool }.
(** struct model: fcls, cls, and the cls of every residual layer of rls *)
Record model := Model { fcls : list fnode; cls : list cnode; rls : list (list cnode) }.
(** struct transformer_encoder; the three arrays q, k, v have n_head entries *)
Record encoder := Enc { e_head : nat; e_q : list model; e_k : list model; e_v : list model; e_m : model; e_lin : model; e_l2 : list snode }.
(** struct transformer_decoder *)
Record decoder := Dec { d_e : encoder; d_head : nat; d_q : list model; d_k : list model; d_v : list model; d_lin : model; d_l2 : list snode }.
(** struct transformer *)
Record transformer := Tr { te : list encoder; td : list decoder }.
(** struct dueling_categorical_dqn, struct vaemodel *)
Record dqn := Dqn { shared_hidden : model; v_hidden : model; v_linear : model; a_hidden : model; a_linear : model }.
Record vae := Vae { vae_encoder : model; vae_decoder : model }.

(** for(i = 0; i < n; i++) body(a[i]) *)
Definition upto {A S} (n : nat) (l : list A) (body : A -> S -> option S) (s : S) : option S :=
  for_loop n 0 (fun i s => x ← rd l i; body x s) s.
(** the same where n is the number of entries of a *)
Definition over {A S} (l : list A) (body : A -> S -> option S) (s : S) : option S := upto (length l) l body s.

(** * Sums of squares *)
Section sums.
Context (h : heap).
(** temp = d_<nm>[i]; sum += temp*temp *)
Definition sqr (a : nat) (nm : name) (i : nat) (s : R) : option R := x ← rd (h a nm) i; Some (s + x * x)%R.
(** sum += d_<nm>[i] *)
Definition lin (a : nat) (nm : name) (i : nat) (s : R) : option R := x ← rd (h a nm) i; Some (s + x)%R.
(** sum += f() *)
Definition plus (f : option R) (s : R) : option R := x ← f; Some (s + x)%R.

(** clipping_gradient.c:1058-1076 sum_all_quadratic_derivative_weights_bns(bns,n) for the normalization layers of the layer at a *)
Definition sum_bns (a : nat) (bns : list bnl) (n : nat) : option R :=
  for_loop n 0 (fun i s => b ← rd bns i;
    if bnl_train b then for_loop (bnl_dim b) 0 (fun j s => s ← sqr a (Gamma i) j s; sqr a (Beta i) j s) s else Some s) 0%R.
(** clipping_gradient.c:943-974 sum_all_quadratic_derivative_weights_fcls, body of the loop *)
Definition sum_fcl (f : fnode) (s : R) : option R :=
  let c := f_cfg f in let a := f_at f in
  if fl_only_dropout c then Some s else
  s ← (if decide (fl_mode c = GRADIENT_DESCENT) then
         for_loop (fl_out c * fl_in c) 0 (fun j s => s ← sqr a Weights j s; if decide (j < fl_out c) then sqr a Biases j s else Some s) s
       else if decide (fl_mode c = EDGE_POPUP) then for_loop (fl_out c * fl_in c) 0 (sqr a Scores) s
       else Some s);
  if decide (fl_mode c = GRADIENT_DESCENT) then
    match fl_norm c with Some b => plus (sum_bns a [b] 1) s | None => Some s end
  else Some s.
Definition sum_fcls (fs : list fnode) : option R := over fs sum_fcl 0%R.
(** clipping_gradient.c:869-910 sum_all_quadratic_derivative_weights_cls, body of the loop *)
Definition sum_cl (f : cnode) (s : R) : option R :=
  let c := c_cfg f in let a := c_at f in
  if cv_conv c then
    s ← (if decide (cv_mode c = GRADIENT_DESCENT) then
           for_loop (cv_kernels c) 0 (fun k s => s ← for_loop (cv_channels c * cv_rows c * cv_cols c) 0 (sqr a (Kernel k)) s; sqr a Biases k s) s
         else if decide (cv_mode c = EDGE_POPUP) then
           for_loop (cv_kernels c * cv_channels c * cv_rows c * cv_cols c) 0 (sqr a Scores) s
         else Some s);
    if decide (cv_mode c = GRADIENT_DESCENT) then
      for_loop (length (cv_group c)) 0 (fun k s => b ← rd (cv_group c) k;
        if bnl_train b then for_loop (bnl_dim b) 0 (fun z s => s ← sqr a (Gamma k) z s; sqr a (Beta k) z s) s else Some s) s
    else Some s
  else Some s.
Definition sum_cls (cs : list cnode) : option R := over cs sum_cl 0%R.
(** clipping_gradient.c:849-858 sum_all_quadratic_derivative_weights_rls *)
Definition sum_rls (rs : list (list cnode)) : option R := over rs (fun cs => plus (sum_cls cs)) 0%R.
(** clipping_gradient.c:921-931 sum_all_quadratic_derivative_weights_scaled_l2_norm *)
Definition sum_l2 (ls : list snode) : option R := over ls (fun l s => if s_train l then sqr (s_at l) (Gamma 0) 0 s else Some s) 0%R.
(** clipping_gradient.c:985-1048 sum_all_quadratic_derivative_weights_lstms, body of the loop *)
Definition sum_lstm (f : lnode) (s : R) : option R :=
  let c := l_cfg f in let a := l_at f in
  let four op j s := for_loop 4 0 (fun g => op g j) s in
  s ← (if decide (ls_mode c = GRADIENT_DESCENT) then plus (sum_bns a (l_bns f) (length (l_bns f))) s else Some s);
  if decide (ls_mode c = GRADIENT_DESCENT) then
    s ← for_loop (ls_out c * ls_in c) 0 (fun j s =>
          s ← four (fun g => sqr a (W g)) j s;
          if decide (j < ls_out c) then four (fun g => lin a (LBiases g)) j s else Some s) s;
    for_loop (ls_out c * ls_in c) 0 (four (fun g => sqr a (U g))) s
  else if decide (ls_mode c = EDGE_POPUP) then
    s ← for_loop (ls_out c * ls_in c) 0 (four (fun g => sqr a (WScores g))) s;
    for_loop (ls_out c * ls_in c) 0 (four (fun g => sqr a (UScores g))) s
  else Some s.
Definition sum_lstms (ls : list lnode) : option R := over ls sum_lstm 0%R.
(** clipping_gradient.c:334-343 sum_all_quadratic_derivative_weights_m *)
Definition sum_m (m : model) : option R := s ← plus (sum_fcls (fcls m)) 0%R; s ← plus (sum_cls (cls m)) s; plus (sum_rls (rls m)) s.
(** the three += of a model where they are written out (264-266, 280-298, 600-605, 53-55) *)
Definition add_m (m : model) (s : R) : option R := s ← plus (sum_fcls (fcls m)) s; s ← plus (sum_cls (cls m)) s; plus (sum_rls (rls m)) s.
(** the loop over the heads (383-387, 430-439): q[i], k[i], v[i] *)
Definition sum_heads (n : nat) (q k v : list model) (s : R) : option R :=
  for_loop n 0 (fun i s => x ← rd q i; y ← rd k i; z ← rd v i; s ← plus (sum_m x) s; s ← plus (sum_m y) s; plus (sum_m z) s) s.
(** clipping_gradient.c:381-388 *)
Definition sum_encoder (t : encoder) (s : R) : option R :=
  s ← plus (sum_m (e_m t)) s; s ← plus (sum_m (e_lin t)) s; s ← sum_heads (e_head t) (e_q t) (e_k t) (e_v t) s; plus (sum_l2 (e_l2 t)) s.
(** clipping_gradient.c:427-441 *)
Definition sum_decoder (t : decoder) (s : R) : option R :=
  s ← plus (sum_m (e_m (d_e t))) s; s ← plus (sum_m (e_lin (d_e t))) s; s ← plus (sum_m (d_lin t)) s;
  s ← sum_heads (d_head t) (d_q t) (d_k t) (d_v t) s;
  s ← sum_heads (e_head (d_e t)) (e_q (d_e t)) (e_k (d_e t)) (e_v (d_e t)) s;
  s ← plus (sum_l2 (e_l2 (d_e t))) s; plus (sum_l2 (d_l2 t)) s.
End sums.

(** * Scaling *)
(** d_<nm>[i] *= div *)
Definition mul (div : R) (a : nat) (nm : name) (i : nat) (h : heap) : option heap :=
  x ← rd (h a nm) i; Some (hset h a nm (<[i := (x * div)%R]> (h a nm))).
Section scaling.
Context (div : R).
(** clipping_gradient.c:799-816 clip_bns(bns,n,...) *)
Definition clip_bns (a : nat) (bns : list bnl) (n : nat) (h : heap) : option heap :=
  for_loop n 0 (fun i h => b ← rd bns i;
    if bnl_train b then for_loop (bnl_dim b) 0 (fun j h => h ← mul div a (Gamma i) j h; mul div a (Beta i) j h) h else Some h) h.
(** clipping_gradient.c:700-727 clip_fcls, body of the loop.  The array given to clip_bns is the single pointer
    &fcls[i]->layer_norm, its length output/n_groups *)
Definition clip_fcl (f : fnode) (h : heap) : option heap :=
  let c := f_cfg f in let a := f_at f in
  if fl_only_dropout c then Some h else
  if decide (fl_mode c = GRADIENT_DESCENT) then
    h ← for_loop (fl_out c * fl_in c) 0 (fun j h => h ← mul div a Weights j h; if decide (j < fl_out c) then mul div a Biases j h else Some h) h;
    match fl_norm c with
    | Some b => if bnl_train b then clip_bns a [b] (fl_out c / f_groups f) h else Some h
    | None => Some h
    end
  else if decide (fl_mode c = EDGE_POPUP) then for_loop (fl_out c * fl_in c) 0 (mul div a Scores) h
  else Some h.
(** clipping_gradient.c:650-688 clip_cls, body of the loop *)
Definition clip_cl (f : cnode) (h : heap) : option heap :=
  let c := c_cfg f in let a := c_at f in
  if cv_conv c then
    h ← (if decide (cv_mode c = GRADIENT_DESCENT) then
           for_loop (cv_kernels c) 0 (fun k h => h ← for_loop (cv_channels c * cv_rows c * cv_cols c) 0 (mul div a (Kernel k)) h; mul div a Biases k h) h
         else if decide (cv_mode c = EDGE_POPUP) then
           for_loop (cv_kernels c * cv_channels c * cv_rows c * cv_cols c) 0 (mul div a Scores) h
         else Some h);
    if decide (cv_mode c = GRADIENT_DESCENT) then
      for_loop (length (cv_group c)) 0 (fun k h => b ← rd (cv_group c) k;
        if bnl_train b then for_loop (bnl_dim b) 0 (fun z h => h ← mul div a (Gamma k) z h; mul div a (Beta k) z h) h else Some h) h
    else Some h
  else Some h.
(** clipping_gradient.c:740-786 clip_lstms, body of the loop *)
Definition clip_lstm (f : lnode) (h : heap) : option heap :=
  let c := l_cfg f in let a := l_at f in
  let four nm j h := for_loop 4 0 (fun g => mul div a (nm g) j) h in
  if decide (ls_mode c = GRADIENT_DESCENT) then
    h ← clip_bns a (l_bns f) (length (l_bns f)) h;
    h ← for_loop (ls_out c * ls_in c) 0 (fun j h => h ← four W j h; if decide (j < ls_out c) then four LBiases j h else Some h) h;
    for_loop (ls_out c * ls_out c) 0 (four U) h
  else if decide (ls_mode c = EDGE_POPUP) then
    h ← for_loop (ls_out c * ls_in c) 0 (four WScores) h;
    for_loop (ls_out c * ls_out c) 0 (four UScores) h
  else Some h.
Definition clip_lstms (ls : list lnode) : heap -> option heap := over ls clip_lstm.
(** clipping_gradient.c:828-838 clip_scaled_l2 *)
Definition clip_l2 (ls : list snode) : heap -> option heap := over ls (fun l h => if s_train l then mul div (s_at l) (Gamma 0) 0 h else Some h).
(** clipping_gradient.c:629-637 clip_rls(rls,n,...) *)
Definition clip_rls (n : nat) (rs : list (list cnode)) : heap -> option heap := upto n rs (fun cs => over cs clip_cl).
(** the calls clip_fcls, clip_cls, clip_rls for a model (270-272); [n] is the number of residual layers passed to clip_rls *)
Definition clip_m' (n : nat) (m : model) (h : heap) : option heap :=
  h ← over (fcls m) clip_fcl h; h ← over (cls m) clip_cl h; clip_rls n (rls m) h.
Definition clip_m (m : model) : heap -> option heap := clip_m' (length (rls m)) m.
(** clipping_gradient.c:391-401: the loop over the heads *)
Definition clip_heads (n : nat) (q k v : list model) (h : heap) : option heap :=
  for_loop n 0 (fun i h => x ← rd q i; y ← rd k i; z ← rd v i; h ← clip_m x h; h ← clip_m y h; clip_m z h) h.
(** clipping_gradient.c:391-408 *)
Definition clip_encoder (t : encoder) (h : heap) : option heap :=
  h ← clip_heads (e_head t) (e_q t) (e_k t) (e_v t) h; h ← clip_m (e_m t) h; h ← clip_m (e_lin t) h; clip_l2 (e_l2 t) h.
(** clipping_gradient.c:444-476 *)
Definition clip_decoder (t : decoder) (h : heap) : option heap :=
  h ← clip_heads (d_head t) (d_q t) (d_k t) (d_v t) h;
  h ← clip_heads (e_head (d_e t)) (e_q (d_e t)) (e_k (d_e t)) (e_v (d_e t)) h;
  h ← clip_m (e_m (d_e t)) h; h ← clip_m (e_lin (d_e t)) h; h ← clip_m (d_lin t) h;
  h ← clip_l2 (e_l2 (d_e t)) h; clip_l2 (d_l2 t) h.
(** clipping_gradient.c:193-212: the encoders of general_clipping_gradient.  Line 203 passes the number of residual layers of
    k[z] with the residual layers of v[z] *)
Definition clip_encoder_general (t : encoder) (h : heap) : option heap :=
  h ← for_loop (e_head t) 0 (fun i h => x ← rd (e_q t) i; y ← rd (e_k t) i; z ← rd (e_v t) i;
        h ← clip_m x h; h ← clip_m y h; clip_m' (length (rls y)) z h) h;
  h ← clip_m (e_m t) h; h ← clip_m (e_lin t) h; clip_l2 (e_l2 t) h.
(** clipping_gradient.c:213-247: the decoders of general_clipping_gradient *)
Definition clip_decoder_general : decoder -> heap -> option heap := clip_decoder.
End scaling.

(** sum = sqrtf(sum); if(sum >= threshold) clip...(threshold,sum).  The square root of a negative sum is a NaN and the
    comparison is false *)
Definition clip_if (threshold sum : R) (clip : R -> heap -> option heap) (h : heap) : option heap :=
  if decide (0 <= sum /\ threshold <= R_sqrt.sqrt sum)%R then clip (threshold / R_sqrt.sqrt sum)%R h else Some h.

(** clipping_gradient.c:260-274 *)
Definition clipping_gradient (m : model) (threshold : R) (h : heap) : option heap :=
  s ← add_m h m 0%R; clip_if threshold s (fun d => clip_m d m) h.
(** clipping_gradient.c:276-324: the fields in the order of both passes *)
Definition dqn_models (d : dqn) : list model := [shared_hidden d; v_hidden d; v_linear d; a_hidden d; a_linear d].
Definition dqn_clipping_gradient (d : dqn) (threshold : R) (h : heap) : option heap :=
  s ← over (dqn_models d) (add_m h) 0%R; clip_if threshold s (fun k => over (dqn_models d) (clip_m k)) h.
(** clipping_gradient.c:354-364 *)
Definition clipping_gradient_rmodel (ls : list lnode) (threshold : R) (h : heap) : option heap :=
  s ← plus (sum_lstms h ls) 0%R; clip_if threshold s (fun d => clip_lstms d ls) h.
(** clipping_gradient.c:376-411 *)
Definition clipping_gradient_transf_encoder (t : encoder) (threshold : R) (h : heap) : option heap :=
  s ← sum_encoder h t 0%R; clip_if threshold s (fun d => clip_encoder d t) h.
(** clipping_gradient.c:422-478 *)
Definition clipping_gradient_transf_decoder (t : decoder) (threshold : R) (h : heap) : option heap :=
  s ← sum_decoder h t 0%R; clip_if threshold s (fun d => clip_decoder d t) h.
(** clipping_gradient.c:490-583.  The l2 layers of an encoder are added before its heads *)
Definition sum_encoder_in_transf (h : heap) (t : encoder) (s : R) : option R :=
  s ← plus (sum_m h (e_m t)) s; s ← plus (sum_m h (e_lin t)) s; s ← plus (sum_l2 h (e_l2 t)) s; sum_heads h (e_head t) (e_q t) (e_k t) (e_v t) s.
Definition clipping_gradient_transf (t : transformer) (threshold : R) (h : heap) : option heap :=
  s ← over (te t) (sum_encoder_in_transf h) 0%R; s ← over (td t) (sum_decoder h) s;
  clip_if threshold s (fun d h => h ← over (te t) (clip_encoder d) h; over (td t) (clip_decoder d) h) h.
(** clipping_gradient.c:596-616 *)
Definition clipping_gradient_vae_model (v : vae) (threshold : R) (h : heap) : option heap :=
  s ← add_m h (vae_encoder v) 0%R; s ← add_m h (vae_decoder v) s;
  clip_if threshold s (fun d h => h ← clip_m d (vae_encoder v) h; clip_m d (vae_decoder v) h) h.

(** clipping_gradient.c:103-119: the decoders of general_clipping_gradient add the heads of the inner encoder first *)
Definition sum_decoder_general (h : heap) (t : decoder) (s : R) : option R :=
  s ← plus (sum_m h (e_m (d_e t))) s; s ← plus (sum_m h (e_lin (d_e t))) s; s ← plus (sum_m h (d_lin t)) s;
  s ← sum_heads h (e_head (d_e t)) (e_q (d_e t)) (e_k (d_e t)) (e_v (d_e t)) s;
  s ← sum_heads h (d_head t) (d_q t) (d_k t) (d_v t) s;
  s ← plus (sum_l2 h (e_l2 (d_e t))) s; plus (sum_l2 h (d_l2 t)) s.
(** clipping_gradient.c:49-251 general_clipping_gradient(m,r,t,e,d,...,threshold).  The test guards only the models: the rest is
    scaled by threshold/sum whatever the norm.  A negative sum (NaN norm) with anything but models multiplies gradients by NaN: [None] *)
Definition general_clipping_gradient (ms : list model) (rs : list (list lnode)) (ts : list transformer) (es : list encoder)
    (ds : list decoder) (threshold : R) (h : heap) : option heap :=
  s ← over ms (add_m h) 0%R;
  s ← over rs (fun r => plus (sum_lstms h r)) s;
  s ← over ts (fun t s => s ← over (te t) (sum_encoder h) s; over (td t) (sum_decoder h) s) s;
  s ← over es (sum_encoder h) s;
  s ← over ds (sum_decoder_general h) s;
  h ← clip_if threshold s (fun d => over ms (clip_m d)) h;
  if decide (rs = [] /\ ts = [] /\ es = [] /\ ds = []) then Some h else
  if decide (s < 0)%R then None else
  let d := (threshold / R_sqrt.sqrt s)%R in
  h ← over rs (clip_lstms d) h;
  h ← over ts (fun t h => h ← over (te t) (clip_encoder d) h; over (td t) (clip_decoder d) h) h;
  h ← over es (clip_encoder_general d) h;
  over ds (clip_decoder_general d) h.

(** * Adaptive clipping.  [w] holds the values of the parameters, [h] their gradients *)
Section adaptive.
Context (w : heap) (threshold epsilon : R).
(** clipping_gradient.c:1182-1200 (the same at 1090-1106, 1107-1124, ...): one unit, n entries starting at b of the array nm.
    max_float(a,b) is the larger one.  When sum_g is 0 the C ratio is +inf or NaN and every gradient of the unit is 0; here the
    division by 0 is 0: the gradients stay 0 in both *)
Definition adapt_unit (a : nat) (nm : name) (b n : nat) (h : heap) : option heap :=
  sw ← for_loop n 0 (fun j => sqr w a nm (b + j)) 0%R;
  sg ← for_loop n 0 (fun j => sqr h a nm (b + j)) 0%R;
  let sum_w := Rmax (R_sqrt.sqrt sw) epsilon in let sum_g := R_sqrt.sqrt sg in
  let ratio := (sum_w / sum_g)%R in
  if decide (threshold < ratio)%R then for_loop n 0 (fun j => mul (1 / ratio * threshold) a nm (b + j)) h else Some h.
(** rows of a matrix *)
Definition adapt_rows (a : nat) (nm : name) (rows cols : nat) (h : heap) : option heap :=
  for_loop rows 0 (fun i => adapt_unit a nm (i * cols) cols) h.
(** clipping_gradient.c:1174-1224 adaptive_gradient_clipping_fcl *)
Definition adapt_fcl (f : fnode) (h : heap) : option heap :=
  let c := f_cfg f in
  if fl_only_dropout c then Some h else
  if decide (fl_mode c = GRADIENT_DESCENT) then adapt_rows (f_at f) Weights (fl_out c) (fl_in c) h
  else if decide (fl_mode c = EDGE_POPUP) then adapt_rows (f_at f) Scores (fl_out c) (fl_in c) h
  else Some h.
(** clipping_gradient.c:1254-1274: the EDGE_POPUP branch of adaptive_gradient_clipping_cl.  State: sum_w, sum_g, heap *)
Definition adapt_scores (a : nat) (size size2 : nat) (h : heap) : option heap :=
  r ← for_loop size 0 (fun i r =>
        sw ← sqr w a Scores i r.1.1; sg ← sqr r.2 a Scores i r.1.2;
        if decide (i <> 0 /\ (i + 1) mod size2 = 0) then
          let ratio := (Rmax (R_sqrt.sqrt sw) epsilon / R_sqrt.sqrt sg)%R in
          h ← (if decide (threshold < ratio)%R then mul (1 / ratio * threshold) a Scores i r.2 else Some r.2);
          Some (0%R, 0%R, h)
        else Some (sw, sg, r.2)) (0%R, 0%R, h);
  Some r.2.
(** clipping_gradient.c:1226-1279 adaptive_gradient_clipping_cl *)
Definition adapt_cl (f : cnode) (h : heap) : option heap :=
  let c := c_cfg f in let sz := cv_rows c * cv_cols c * cv_channels c in
  if cv_conv c then
    if decide (cv_mode c = GRADIENT_DESCENT) then for_loop (cv_kernels c) 0 (fun i => adapt_unit (c_at f) (Kernel i) 0 sz) h
    else if decide (cv_mode c = EDGE_POPUP) then adapt_scores (c_at f) (cv_kernels c * cv_rows c * cv_cols c * cv_channels c) sz h
    else Some h
  else Some h.
(** clipping_gradient.c:1081-1171 adaptive_gradient_clipping_lstm *)
Definition adapt_lstm (f : lnode) (h : heap) : option heap :=
  let c := l_cfg f in
  if decide (ls_mode c = GRADIENT_DESCENT) then
    for_loop 4 0 (fun k h => h ← adapt_rows (l_at f) (W k) (ls_out c) (ls_in c) h; adapt_rows (l_at f) (U k) (ls_out c) (ls_out c) h) h
  else if decide (ls_mode c = EDGE_POPUP) then
    for_loop 4 0 (fun k h => h ← adapt_rows (l_at f) (WScores k) (ls_out c) (ls_in c) h; adapt_rows (l_at f) (UScores k) (ls_out c) (ls_out c) h) h
  else Some h.
(** clipping_gradient.c:1281-1304 adaptive_gradient_clipping_rl, _model *)
Definition adapt_model (m : model) (h : heap) : option heap :=
  h ← over (fcls m) adapt_fcl h; h ← over (cls m) adapt_cl h; over (rls m) (fun cs => over cs adapt_cl) h.
(** clipping_gradient.c:1317-1325 adaptive_gradient_clipping_rmodel *)
Definition adapt_rmodel (ls : list lnode) : heap -> option heap := over ls adapt_lstm.
End adaptive.
