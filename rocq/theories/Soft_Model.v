(** Model of the soft updates slow_paste_* (target networks), over exact reals (C: float).

    All layers live in one memory: a layer is an address and its configuration (the records of Net_Model.v), [flt h a k nm] is
    the float array <nm> of the layer at address a ([k] = Val), its gradient array d_<nm> (D) or an optimizer buffer d1_<nm>,
    d2_<nm>, d3_<nm>, ex_d_<nm>_diff_grad (D1, D2, D3, DG); [ints h a nm] is the array of the indices that order the scores
    <nm>.  A NULL array is [].  [None] is undefined behaviour.  Not modelled: used_kernels, active_output_neurons and the flags
    copied by the transformers. *)
From Coq Require Import Reals Lra.
From Verif Require Export NumLib Upd_Model Net_Model.
From Verif Require Import Sort_Model.
Open Scope nat_scope.

Inductive kind := Val | D | D1 | D2 | D3 | DG.
Record mem := Mem { flt : nat -> kind -> name -> list R; ints : nat -> name -> list nat }.
Definition keqb (k k' : kind) : bool :=
  match k, k' with Val, Val | D, D | D1, D1 | D2, D2 | D3, D3 | DG, DG => true | _, _ => false end.
Definition neqb (n n' : name) : bool :=
  match n, n' with
  | Weights, Weights | NoisyWeights, NoisyWeights | Scores, Scores | Biases, Biases | NoisyBiases, NoisyBiases => true
  | Kernel k, Kernel k' | Gamma k, Gamma k' | Beta k, Beta k' | W k, W k' | U k, U k' | LBiases k, LBiases k'
  | WScores k, WScores k' | UScores k, UScores k' => (k =? k')
  | _, _ => false
  end.
Definition set_flt (h : mem) (a : nat) (k : kind) (nm : name) (l : list R) : mem :=
  Mem (fun a' k' nm' => if (a' =? a) && keqb k' k && neqb nm' nm then l else flt h a' k' nm') (ints h).
Definition set_ints (h : mem) (a : nat) (nm : name) (l : list nat) : mem :=
  Mem (flt h) (fun a' nm' => if (a' =? a) && neqb nm' nm then l else ints h a' nm').

(** p != NULL *)
Definition nonnull {A} (l : list A) : bool := match l with [] => false | _ => true end.

Section soft.
Context (tau : R).
(** copy-><k nm>[i] = tau*f-><k' nm>[i] + (1-tau)*copy-><k nm>[i] *)
Definition mix (src dst : nat) (k' k : kind) (nm : name) (i : nat) (h : mem) : option mem :=
  x ← rd (flt h src k' nm) i; y ← rd (flt h dst k nm) i; l ← wr (flt h dst k nm) i (tau * x + (1 - tau) * y)%R;
  Some (set_flt h dst k nm l).
Definition blend (src dst : nat) (k : kind) := mix src dst k k.
(** if(f-><k nm> != NULL) ... *)
Definition blend_opt (src dst : nat) (k : kind) (nm : name) (i : nat) (h : mem) : option mem :=
  if nonnull (flt h src k nm) then blend src dst k nm i h else Some h.
Definition if_ (b : bool) (f : mem -> option mem) (h : mem) : option mem := if b then f h else Some h.

(** utils.c:1100-1105 sort(values,indices,0,n-1) on the scores values of address a; the values are truncated to ints (see
    Sort_Model.v) *)
Definition trunc (x : R) : Z := if decide (0 <= x)%R then Int_part x else (- Int_part (- x))%Z.
Definition sort_scores (a : nat) (k : kind) (nm inm : name) (n : nat) (h : mem) : option mem :=
  match n with
  | 0 => Some h
  | S high => l ← merge_sort 1 (S n) (map trunc (flt h a k nm)) (ints h a inm) 0 high; Some (set_ints h a inm l)
  end.
(** indices[i] = i *)
Definition index_at (a : nat) (nm : name) (i : nat) (h : mem) : option mem := l ← wr (ints h a nm) i i; Some (set_ints h a nm l).

(** batch_norm_layers.c:665-682 slow_paste_bn, for normalization layer number b of the layers at src and dst *)
Definition slow_paste_bn (src dst b : nat) (f : bnl) (h : mem) : option mem :=
  for_loop (bnl_dim f) 0 (fun i h =>
    h ← blend src dst Val (Gamma b) i h; h ← blend src dst D1 (Gamma b) i h; h ← blend src dst D2 (Gamma b) i h; h ← blend src dst D3 (Gamma b) i h;
    h ← blend src dst Val (Beta b) i h; h ← blend src dst D1 (Beta b) i h; h ← blend src dst D2 (Beta b) i h; blend src dst D3 (Beta b) i h) h.

(** fully_connected_layers.c:652-666 exists_params_fcl, exists_d_params_fcl, exists_edge_popup_stuff_fcl *)
Definition has_params (f : fnode) : bool := negb (fl_only_dropout (f_cfg f)).
Definition has_d (f : fnode) : bool :=
  negb (fl_only_dropout (f_cfg f)) && bool_decide (fl_mode (f_cfg f) <> EDGE_POPUP) && bool_decide (fl_mode (f_cfg f) <> ONLY_FF).
Definition has_scores (f : fnode) : bool := negb (fl_only_dropout (f_cfg f)) && (f_edge f || bool_decide (fl_mode (f_cfg f) = EDGE_POPUP)).
(** fully_connected_layers.c:1994-2049 slow_paste_fcl, body of the loop *)
Definition slow_paste_fcl_at (f g : fnode) (i : nat) (h : mem) : option mem :=
  let out := fl_out (f_cfg f) in let src := f_at f in let dst := f_at g in
  let noisy := fl_noisy (f_cfg f) && fl_noisy (f_cfg g) in
  let p := has_params f && has_params g in let d := has_d f && has_d g in let e := has_scores f && has_scores g in
  h ← if_ (i <? out) (fun h =>
        h ← if_ p (blend src dst Val Biases i) h;
        if_ d (fun h => h ← blend_opt src dst D1 Biases i h; h ← blend_opt src dst D2 Biases i h; blend_opt src dst D3 Biases i h) h) h;
  h ← if_ p (fun h =>
        h ← blend src dst Val Weights i h;
        if_ noisy (fun h => h ← blend src dst Val NoisyWeights i h; if_ (i <? out) (blend src dst Val NoisyBiases i) h) h) h;
  h ← if_ d (fun h =>
        h ← blend_opt src dst D1 Weights i h; h ← blend_opt src dst D2 Weights i h; h ← blend_opt src dst D3 Weights i h;
        if_ noisy (fun h =>
          h ← blend_opt src dst D1 NoisyWeights i h; h ← blend_opt src dst D2 NoisyWeights i h; h ← blend_opt src dst D3 NoisyWeights i h;
          if_ (i <? out) (fun h =>
            h ← blend_opt src dst D1 NoisyBiases i h; h ← blend_opt src dst D2 NoisyBiases i h; blend_opt src dst D3 NoisyBiases i h) h) h) h;
  if_ e (fun h =>
    h ← blend_opt src dst Val Scores i h; h ← blend_opt src dst D1 Scores i h; h ← blend_opt src dst D2 Scores i h; blend_opt src dst D3 Scores i h) h.
(** fully_connected_layers.c:1985-2068 slow_paste_fcl *)
Definition slow_paste_fcl (f g : fnode) (h : mem) : option mem :=
  let c := f_cfg f in let c2 := f_cfg g in
  if decide (fl_out c <> fl_out c2) then Some h else
  let in_out := fl_out c * fl_in c in
  if decide (in_out <> fl_in c2 * fl_out c2) then Some h else
  h ← for_loop in_out 0 (slow_paste_fcl_at f g) h;
  h ← if_ (has_scores g && has_scores f) (fun h =>
        h ← for_loop in_out 0 (fun i h => if nonnull (ints h (f_at g) Scores) then index_at (f_at g) Scores i h else Some h) h;
        if nonnull (ints h (f_at g) Scores) && nonnull (flt h (f_at g) Val Scores) then sort_scores (f_at g) Val Scores Scores in_out h else Some h) h;
  match fl_norm c, fl_norm c2 with Some b, Some _ => slow_paste_bn (f_at f) (f_at g) 0 b h | _, _ => Some h end.

(** convolutional_layers.c:911-945 exists_d_kernels_cl, exists_d_biases_cl (and d_kernels != NULL, d_biases != NULL, tested here
    on the array itself), exists_edge_popup_stuff_cl *)
Definition trains_cl (c : cnode) : bool :=
  bool_decide (cv_mode (c_cfg c) <> EDGE_POPUP) && bool_decide (cv_mode (c_cfg c) <> ONLY_FF) && cv_conv (c_cfg c).
Definition has_scores_cl (c : cnode) : bool := cv_conv (c_cfg c) && (c_edge c || bool_decide (cv_mode (c_cfg c) = EDGE_POPUP)).
(** convolutional_layers.c:2546-2574, body of the loop over the kernels *)
Definition slow_paste_kernel (f g : cnode) (i : nat) (h : mem) : option mem :=
  let src := c_at f in let dst := c_at g in
  let n := cv_channels (c_cfg f) * cv_rows (c_cfg f) * cv_cols (c_cfg f) in
  h ← if_ (cv_conv (c_cfg f) && cv_conv (c_cfg g)) (for_loop n 0 (fun j h =>
        h ← blend src dst Val (Kernel i) j h;
        if_ (trains_cl f && nonnull (flt h src D (Kernel i)) && (trains_cl g && nonnull (flt h dst D (Kernel i)))) (fun h =>
          h ← blend_opt src dst D (Kernel i) j h; h ← blend_opt src dst D1 (Kernel i) j h;
          h ← blend_opt src dst D2 (Kernel i) j h; blend_opt src dst D3 (Kernel i) j h) h)) h;
  if_ (cv_conv (c_cfg f) && cv_conv (c_cfg g)) (fun h =>
    h ← blend src dst Val Biases i h;
    if_ (trains_cl f && nonnull (flt h src D Biases)) (fun h =>
      h ← blend_opt src dst D Biases i h; h ← blend_opt src dst D1 Biases i h;
      h ← blend_opt src dst D2 Biases i h; blend_opt src dst D3 Biases i h) h) h.
(** convolutional_layers.c:2584-2599, body of the loop over the scores: the buffers d1_scores, d2_scores, d3_scores are mixed with
    f->d_scores *)
Definition slow_paste_score (f g : cnode) (i : nat) (h : mem) : option mem :=
  let src := c_at f in let dst := c_at g in
  let from_d k h := if nonnull (flt h src k Scores) then mix src dst D k Scores i h else Some h in
  h ← blend_opt src dst Val Scores i h; h ← blend_opt src dst D Scores i h;
  h ← from_d D1 h; h ← from_d D2 h; h ← from_d D3 h;
  if nonnull (ints h src Scores) then index_at dst Scores i h else Some h.
(** convolutional_layers.c:2523-2611 slow_paste_cl (without used_kernels) *)
Definition slow_paste_cl (f g : cnode) (h : mem) : option mem :=
  let c := c_cfg f in let c2 := c_cfg g in
  let all := cv_kernels c * cv_channels c * cv_rows c * cv_cols c in
  if decide (cv_kernels c <> cv_kernels c2) then Some h else
  if decide (all <> cv_kernels c2 * cv_channels c2 * cv_rows c2 * cv_cols c2) then Some h else
  if decide (cv_channels c * cv_rows c * cv_cols c <> cv_channels c2 * cv_rows c2 * cv_cols c2) then Some h else
  h ← if_ (cv_conv c) (for_loop (cv_kernels c) 0 (slow_paste_kernel f g)) h;
  h ← if_ (bool_decide (length (cv_group c) = length (cv_group c2)))
        (for_loop (length (cv_group c)) 0 (fun b h => x ← rd (cv_group c) b; slow_paste_bn (c_at f) (c_at g) b x h)) h;
  if_ (has_scores_cl f && has_scores_cl g) (fun h =>
    h ← for_loop all 0 (slow_paste_score f g) h;
    if nonnull (flt h (c_at g) Val Scores) then sort_scores (c_at g) Val Scores Scores all h else Some h) h.

(** struct lstm with its feed_forward_flag == EDGE_POPUP *)
Record rnode := RN { r_l : lnode; r_edge : bool }.
Definition has_scores_lstm (l : rnode) : bool := bool_decide (ls_mode (l_cfg (r_l l)) = EDGE_POPUP) || r_edge l.
(** recurrent_layers.c:1423-1445, body of the loop over w *)
Definition slow_paste_w (l c : rnode) (g j : nat) (h : mem) : option mem :=
  let src := l_at (r_l l) in let dst := l_at (r_l c) in
  h ← blend src dst Val (W g) j h;
  h ← if_ (bool_decide (ls_mode (l_cfg (r_l l)) <> EDGE_POPUP)) (fun h =>
        h ← blend_opt src dst D1 (W g) j h; h ← blend_opt src dst D2 (W g) j h; blend_opt src dst D3 (W g) j h) h;
  if_ (has_scores_lstm l) (fun h =>
    h ← blend_opt src dst Val (WScores g) j h; h ← blend_opt src dst D (WScores g) j h; h ← blend_opt src dst D1 (WScores g) j h;
    h ← blend_opt src dst D2 (WScores g) j h; h ← blend_opt src dst D3 (WScores g) j h;
    if nonnull (ints h src (WScores g)) then index_at dst (WScores g) j h else Some h) h.
(** recurrent_layers.c:1446-1483, body of the loop over u *)
Definition slow_paste_u (l c : rnode) (g j : nat) (h : mem) : option mem :=
  let src := l_at (r_l l) in let dst := l_at (r_l c) in
  let d := bool_decide (ls_mode (l_cfg (r_l l)) <> EDGE_POPUP) in
  h ← blend src dst Val (U g) j h;
  h ← if_ d (fun h => h ← blend_opt src dst D1 (U g) j h; h ← blend_opt src dst D2 (U g) j h; blend_opt src dst D3 (U g) j h) h;
  h ← if_ (j <? ls_out (l_cfg (r_l l))) (fun h =>
        h ← blend src dst Val (LBiases g) j h;
        if_ d (fun h => h ← blend_opt src dst D1 (LBiases g) j h; h ← blend_opt src dst D2 (LBiases g) j h; blend_opt src dst D3 (LBiases g) j h) h) h;
  if_ (has_scores_lstm l) (fun h =>
    h ← blend_opt src dst Val (UScores g) j h; h ← blend_opt src dst D (UScores g) j h; h ← blend_opt src dst D1 (UScores g) j h;
    h ← blend_opt src dst D2 (UScores g) j h; h ← blend_opt src dst D3 (UScores g) j h;
    if nonnull (ints h src (UScores g)) then index_at dst (UScores g) j h else Some h) h.
(** recurrent_layers.c:1485-1494: the order of the scores, from d_w_scores and d_u_scores; the second sort also permutes w_indices *)
Definition sort_lstm (l c : rnode) (g : nat) (h : mem) : option mem :=
  let n := ls_out (l_cfg (r_l c)) in let m := ls_in (l_cfg (r_l c)) in
  if_ (has_scores_lstm l) (fun h =>
    h ← (if nonnull (flt h (l_at (r_l l)) D (WScores g)) then sort_scores (l_at (r_l c)) D (WScores g) (WScores g) (n * m) h else Some h);
    if nonnull (flt h (l_at (r_l l)) D (UScores g)) then sort_scores (l_at (r_l c)) D (UScores g) (WScores g) (n * n) h else Some h) h.
(** recurrent_layers.c:1417-1504 slow_paste_lstm *)
Definition slow_paste_lstm (l c : rnode) (h : mem) : option mem :=
  let cfg := l_cfg (r_l l) in
  h ← for_loop 4 0 (fun g h =>
        h ← for_loop (ls_out cfg * ls_in cfg) 0 (slow_paste_w l c g) h;
        h ← for_loop (ls_out cfg * ls_out cfg) 0 (slow_paste_u l c g) h;
        sort_lstm l c g h) h;
  for_loop (length (l_bns (r_l l))) 0 (fun b h => x ← rd (l_bns (r_l l)) b; slow_paste_bn (l_at (r_l l)) (l_at (r_l c)) b x h) h.

(** scaled_l2_norm_layers.c:258-268 slow_paste_scaled_l2_norm *)
Definition slow_paste_l2 (f g : snode) (h : mem) : option mem :=
  let b k := blend (s_at f) (s_at g) k (Gamma 0) 0 in
  h ← b Val h; h ← b D h; h ← b D1 h; h ← b D2 h; h ← b D3 h; b DG h.

(** for(i = 0; i < (entries of a); i++) body(a[i], b[i]) *)
Definition over2 {A} (a b : list A) (body : A -> A -> mem -> option mem) (h : mem) : option mem :=
  for_loop (length a) 0 (fun i h => x ← rd a i; y ← rd b i; body x y h) h.
(** model.c:647-662 slow_paste_model with residual_layers.c:634-643 slow_paste_rl *)
Definition slow_paste_model (m c : model) (h : mem) : option mem :=
  h ← over2 (fcls m) (fcls c) slow_paste_fcl h;
  h ← over2 (cls m) (cls c) slow_paste_cl h;
  over2 (rls m) (rls c) (fun r r2 => over2 r r2 slow_paste_cl) h.
(** rmodel.c:278-287 slow_paste_rmodel *)
Definition slow_paste_rmodel (m c : list rnode) (h : mem) : option mem := over2 m c slow_paste_lstm h.
(** dueling_categorical_dqn.c:801-811 slow_paste_dueling_categorical_dqn *)
Definition slow_paste_dqn (m c : dqn) (h : mem) : option mem :=
  h ← slow_paste_model (shared_hidden m) (shared_hidden c) h; h ← slow_paste_model (v_hidden m) (v_hidden c) h;
  h ← slow_paste_model (a_hidden m) (a_hidden c) h; h ← slow_paste_model (v_linear m) (v_linear c) h;
  slow_paste_model (a_linear m) (a_linear c) h.
(** vae_model.c:117-122 slow_paste_vae_model *)
Definition slow_paste_vae (m c : vae) (h : mem) : option mem :=
  h ← slow_paste_model (vae_encoder m) (vae_encoder c) h; slow_paste_model (vae_decoder m) (vae_decoder c) h.
(** the loop over the heads (transformer_encoder.c:940-944, transformer_decoder.c:809-813) *)
Definition slow_paste_heads (n : nat) (q q2 k k2 v v2 : list model) (h : mem) : option mem :=
  for_loop n 0 (fun i h =>
    x ← rd q i; x2 ← rd q2 i; h ← slow_paste_model x x2 h;
    y ← rd k i; y2 ← rd k2 i; h ← slow_paste_model y y2 h;
    z ← rd v i; z2 ← rd v2 i; slow_paste_model z z2 h) h.
(** transformer_encoder.c:938-953 slow_paste_transformer_encoder *)
Definition slow_paste_encoder (t c : encoder) (h : mem) : option mem :=
  h ← slow_paste_heads (e_head t) (e_q t) (e_q c) (e_k t) (e_k c) (e_v t) (e_v c) h;
  h ← over2 (e_l2 t) (e_l2 c) slow_paste_l2 h;
  h ← slow_paste_model (e_m t) (e_m c) h; slow_paste_model (e_lin t) (e_lin c) h.
(** transformer_decoder.c:807-822 slow_paste_transformer_decoder *)
Definition slow_paste_decoder (t c : decoder) (h : mem) : option mem :=
  h ← slow_paste_heads (d_head t) (d_q t) (d_q c) (d_k t) (d_k c) (d_v t) (d_v c) h;
  h ← over2 (d_l2 t) (d_l2 c) slow_paste_l2 h;
  h ← slow_paste_encoder (d_e t) (d_e c) h; slow_paste_model (d_lin t) (d_lin c) h.
(** transformer.c:264-276 slow_paste_transformer *)
Definition slow_paste_transformer (t c : transformer) (h : mem) : option mem :=
  h ← over2 (te t) (te c) slow_paste_encoder h; over2 (td t) (td c) slow_paste_decoder h.
End soft.
