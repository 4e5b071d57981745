(** What a soft update should do *)
From Coq Require Import Reals Lra.
From Verif Require Import NumLib Upd_Model Upd_Spec Net_Model Net_Spec Soft_Model.
Open Scope nat_scope.

(** a pair of layers: the layer the update reads and the layer it changes *)
Inductive pair :=
| PF (f g : fnode) | PC (f g : cnode) | PL (f g : rnode) | PS (f g : snode).
Definition src (p : pair) : nat := match p with PF f _ => f_at f | PC f _ => c_at f | PL f _ => l_at (r_l f) | PS f _ => s_at f end.
Definition dst (p : pair) : nat := match p with PF _ f => f_at f | PC _ f => c_at f | PL _ f => l_at (r_l f) | PS _ f => s_at f end.
(** the number of parameters in array nm of a layer *)
Definition params (p : pair) (nm : name) : nat :=
  match p with
  | PF f _ => match nm with
    | Weights => if has_params f then fl_out (f_cfg f) * fl_in (f_cfg f) else 0
    | Biases => if has_params f then fl_out (f_cfg f) else 0
    | NoisyWeights => if has_params f && fl_noisy (f_cfg f) then fl_out (f_cfg f) * fl_in (f_cfg f) else 0
    | NoisyBiases => if has_params f && fl_noisy (f_cfg f) then fl_out (f_cfg f) else 0
    | Scores => if has_scores f then fl_out (f_cfg f) * fl_in (f_cfg f) else 0
    | Gamma 0 | Beta 0 => match fl_norm (f_cfg f) with Some b => bnl_dim b | None => 0 end
    | _ => 0
    end
  | PC f _ => let c := c_cfg f in match nm with
    | Kernel k => if cv_conv c && (k <? cv_kernels c) then cv_channels c * cv_rows c * cv_cols c else 0
    | Biases => if cv_conv c then cv_kernels c else 0
    | Scores => if has_scores_cl f then cv_kernels c * cv_channels c * cv_rows c * cv_cols c else 0
    | Gamma b | Beta b => group_dim (cv_group c) b
    | _ => 0
    end
  | PL f _ => let c := l_cfg (r_l f) in match nm with
    | W j => if j <? 4 then ls_out c * ls_in c else 0
    | U j => if j <? 4 then ls_out c * ls_out c else 0
    | LBiases j => if j <? 4 then ls_out c else 0
    | WScores j => if has_scores_lstm f && (j <? 4) then ls_out c * ls_in c else 0
    | UScores j => if has_scores_lstm f && (j <? 4) then ls_out c * ls_out c else 0
    | Gamma b | Beta b => group_dim (l_bns (r_l f)) b
    | _ => 0
    end
  | PS _ _ => match nm with Gamma 0 => 1 | _ => 0 end
  end.
(** the two layers have the same configuration (they are copies of each other) *)
Definition same (p : pair) : Prop :=
  match p with
  | PF f g => f_cfg g = f_cfg f /\ f_edge g = f_edge f /\ 0 < fl_in (f_cfg f)
  | PC f g => c_cfg g = c_cfg f /\ c_edge g = c_edge f
  | PL f g => l_cfg (r_l g) = l_cfg (r_l f) /\ l_bns (r_l g) = l_bns (r_l f) /\ r_edge g = r_edge f /\
      (has_scores_lstm f = true -> ls_out (l_cfg (r_l f)) <= ls_in (l_cfg (r_l f)))
  | PS f g => True
  end.
(** the memory of both: parameter arrays and orders of scores have the right size; gradients and optimizer buffers may be
    missing (except those of normalizations; the buffers of the scores of a convolution come with their gradient), but both layers
    have the same ones *)
Definition is_scores (nm : name) : bool := match nm with Scores | WScores _ | UScores _ => true | _ => false end.
Definition laid_out (h : mem) (p : pair) : Prop :=
  (forall nm, length (flt h (src p) Val nm) = params p nm) /\
  (forall k nm, length (flt h (src p) k nm) = 0 \/ length (flt h (src p) k nm) = params p nm) /\
  (forall b k, match p with PS _ _ => True | _ => k = D1 \/ k = D2 \/ k = D3 end ->
     length (flt h (src p) k (Gamma b)) = params p (Gamma b) /\ length (flt h (src p) k (Beta b)) = params p (Beta b)) /\
  (forall k, match p with PC _ _ => k = D1 \/ k = D2 \/ k = D3 | _ => False end ->
     length (flt h (src p) k Scores) = 0 \/ length (flt h (src p) D Scores) = params p Scores) /\
  (forall k nm, length (flt h (dst p) k nm) = length (flt h (src p) k nm)) /\
  (forall nm, is_scores nm = true -> length (ints h (src p) nm) = params p nm /\ length (ints h (dst p) nm) = params p nm).
Definition get (h : mem) (a : nat) (k : kind) (nm : name) (i : nat) : R := el (flt h a k nm) i.
(** every parameter of the target is tau times that of the source plus (1-tau) times its own; everything outside the target
    layers is unchanged; no array changes its size *)
Definition soft_updated (tau : R) (ps : list pair) (h h' : mem) : Prop :=
  (forall p nm i, p ∈ ps -> i < params p nm -> get h' (dst p) Val nm i = (tau * get h (src p) Val nm i + (1 - tau) * get h (dst p) Val nm i)%R) /\
  (forall a, (forall p, p ∈ ps -> a <> dst p) -> forall nm, (forall k, flt h' a k nm = flt h a k nm) /\ ints h' a nm = ints h a nm) /\
  (forall p, p ∈ ps -> laid_out h' p).
(** targets are distinct layers, none of which is also a source *)
Definition fits_in (h : mem) (ps : list pair) : Prop := forall p, p ∈ ps -> same p /\ laid_out h p.
Definition apart (ps : list pair) : Prop := NoDup (map dst ps) /\ forall p q, p ∈ ps -> q ∈ ps -> src p <> dst q.

(** the pairs of layers of two networks *)
Definition model_pairs (m c : model) : list pair :=
  zip_with PF (fcls m) (fcls c) ++ zip_with PC (cls m) (cls c) ++ zip_with PC (concat (rls m)) (concat (rls c)).
(** the same number of layers everywhere *)
Definition alike (m c : model) : Prop :=
  length (fcls c) = length (fcls m) /\ length (cls c) = length (cls m) /\ map length (rls c) = map length (rls m).
Definition dqn_pairs (m c : dqn) : list pair :=
  model_pairs (shared_hidden m) (shared_hidden c) ++ model_pairs (v_hidden m) (v_hidden c) ++ model_pairs (a_hidden m) (a_hidden c) ++
  model_pairs (v_linear m) (v_linear c) ++ model_pairs (a_linear m) (a_linear c).
Definition alike_dqn (m c : dqn) : Prop :=
  alike (shared_hidden m) (shared_hidden c) /\ alike (v_hidden m) (v_hidden c) /\ alike (a_hidden m) (a_hidden c) /\
  alike (v_linear m) (v_linear c) /\ alike (a_linear m) (a_linear c).
Definition vae_pairs (m c : vae) : list pair := model_pairs (vae_encoder m) (vae_encoder c) ++ model_pairs (vae_decoder m) (vae_decoder c).
Definition alike_vae (m c : vae) : Prop := alike (vae_encoder m) (vae_encoder c) /\ alike (vae_decoder m) (vae_decoder c).
(** the heads of an attention block: one query, key and value network each *)
Definition head_pairs (q q2 k k2 v v2 : list model) : list pair :=
  concat (zip_with (fun x x2 => model_pairs (x.1.1) (x2.1.1) ++ model_pairs (x.1.2) (x2.1.2) ++ model_pairs (x.2) (x2.2)) (zip (zip q k) v) (zip (zip q2 k2) v2)).
Definition alike_heads (n : nat) (q q2 k k2 v v2 : list model) : Prop :=
  length q = n /\ length k = n /\ length v = n /\ Forall2 alike q q2 /\ Forall2 alike k k2 /\ Forall2 alike v v2.
Definition encoder_pairs (t c : encoder) : list pair :=
  head_pairs (e_q t) (e_q c) (e_k t) (e_k c) (e_v t) (e_v c) ++ zip_with PS (e_l2 t) (e_l2 c) ++ model_pairs (e_m t) (e_m c) ++ model_pairs (e_lin t) (e_lin c).
Definition alike_encoder (t c : encoder) : Prop :=
  alike_heads (e_head t) (e_q t) (e_q c) (e_k t) (e_k c) (e_v t) (e_v c) /\ length (e_l2 c) = length (e_l2 t) /\ alike (e_m t) (e_m c) /\ alike (e_lin t) (e_lin c).
Definition decoder_pairs (t c : decoder) : list pair :=
  head_pairs (d_q t) (d_q c) (d_k t) (d_k c) (d_v t) (d_v c) ++ zip_with PS (d_l2 t) (d_l2 c) ++ encoder_pairs (d_e t) (d_e c) ++ model_pairs (d_lin t) (d_lin c).
Definition alike_decoder (t c : decoder) : Prop :=
  alike_heads (d_head t) (d_q t) (d_q c) (d_k t) (d_k c) (d_v t) (d_v c) /\ length (d_l2 c) = length (d_l2 t) /\ alike_encoder (d_e t) (d_e c) /\ alike (d_lin t) (d_lin c).
Definition transformer_pairs (t c : transformer) : list pair :=
  concat (zip_with encoder_pairs (te t) (te c)) ++ concat (zip_with decoder_pairs (td t) (td c)).
Definition alike_transformer (t c : transformer) : Prop := Forall2 alike_encoder (te t) (te c) /\ Forall2 alike_decoder (td t) (td c).

(** a history of updates of the same target from the same source: hs n is the memory after n of them *)
Definition history (upd : mem -> option mem) (h : mem) (hs : nat -> mem) : Prop := hs 0 = h /\ forall n, upd (hs n) = Some (hs (S n)).
(** such a history never gets stuck; with s the source value and x n the target value after n updates (x0 before the first), for every parameter: the
    source does not change, x n = s + (1-tau)^n (x0 - s), for tau in [0,1] x n stays between s and x0 and never moves away from
    s, and for tau in (0,1] it converges to s *)
Definition tracks (tau : R) (ps : list pair) (upd : mem -> option mem) (h : mem) : Prop :=
  (exists hs, history upd h hs) /\
  forall hs, history upd h hs -> forall p nm i, p ∈ ps -> i < params p nm ->
    let s := get h (src p) Val nm i in let x n := get (hs n) (dst p) Val nm i in let x0 := get h (dst p) Val nm i in
    (forall n, get (hs n) (src p) Val nm i = s /\ x n = (s + (1 - tau) ^ n * (x0 - s))%R) /\
    ((0 <= tau <= 1)%R -> forall n, (Rmin s x0 <= x n <= Rmax s x0)%R /\ (Rabs (x (S n) - s) <= Rabs (x n - s))%R) /\
    ((0 < tau <= 1)%R -> Un_cv x s).
