(** Which recurrent networks, transformers, dueling networks, autoencoders and EfficientZero models a program can have, and what of them may
    change when they are saved and loaded back. *)
From Verif Require Export Save_Spec.
From Verif Require Import Save2_Model.
Open Scope Z_scope.

(** * Recurrent layers and networks: made by the constructors, then any values in the arrays of the parameters *)
Definition gate_like (a b : gate) : Prop := length (g_w a) = length (g_w b) /\ length (g_u a) = length (g_u b) /\ length (g_b a) = length (g_b b).
Definition egate_like (a b : egate) : Prop :=
  length (e_ws a) = length (e_ws b) /\ length (e_wi a) = length (e_wi b) /\ length (e_ui a) = length (e_ui b) /\ length (e_us a) = length (e_us b).
Definition lstm_like (a b : lstm) : Prop :=
  l_cfg a = l_cfg b /\ Forall2 gate_like (l_gates a) (l_gates b) /\ Forall2 (option_Forall2 egate_like) (l_edge a) (l_edge b)
  /\ option_Forall2 (Forall2 bn_like) (l_bns a) (l_bns b).
Definition made_lstm (l : lstm) : Prop := exists rnd args l0, recurrent_lstm rnd args = Some l0 /\ lstm_like l l0.
(** feed forward by edge popup with another training mode is the configuration whose scores are never allocated *)
Definition reach_lstm (l : lstm) : Prop := made_lstm l /\ (l_ff (l_cfg l) = EDGE_POPUP -> l_train (l_cfg l) = EDGE_POPUP).
Definition rmodel_like (a b : rmodel) : Prop :=
  rm_layers a = rm_layers b /\ rm_window a = rm_window b /\ rm_mode a = rm_mode b /\ Forall2 lstm_like (rm_lstms a) (rm_lstms b).
Definition reach_rmodel (m : rmodel) : Prop :=
  exists layers lstms window mode m0, Forall reach_lstm lstms /\ recurrent_network layers lstms window mode = Some m0 /\ rmodel_like m m0.

(** * Transformers *)
Definition l2_like (a b : l2norm) : Prop := l2_dim a = l2_dim b.
Definition reach_l2 (l : l2norm) : Prop := exists root dim l0, l2_layer root dim = Some l0 /\ l2_like l l0.
Definition head_like (a b : ahead) : Prop := model_like (h_q a) (h_q b) /\ model_like (h_k a) (h_k b) /\ model_like (h_v a) (h_v b).
Definition reach_head (h : ahead) : Prop := reach_model (h_q h) /\ reach_model (h_k h) /\ reach_model (h_v h).
Definition head_with_k (k : word) (h : ahead) : ahead := Head (model_with_k k (h_q h)) (model_with_k k (h_k h)) (model_with_k k (h_v h)).
Definition encoder_like (a b : encoder) : Prop :=
  en_kemb a = en_kemb b /\ en_vemb a = en_vemb b /\ en_att a = en_att b /\ en_in a = en_in b /\ Forall2 head_like (en_heads a) (en_heads b)
  /\ en_res1 a = en_res1 b /\ en_res2 a = en_res2 b /\ en_norm1 a = en_norm1 b /\ en_norm2 a = en_norm2 b /\ Forall2 l2_like (en_l2 a) (en_l2 b)
  /\ model_like (en_m a) (en_m b) /\ model_like (en_lin a) (en_lin b).
(** the parts of the encoder are networks and normalization layers a program can have *)
Definition encoder_parts (t : encoder) : Prop :=
  Forall reach_head (en_heads t) /\ Forall reach_l2 (en_l2 t) /\ reach_model (en_m t) /\ reach_model (en_lin t).
Definition reach_encoder (t : encoder) : Prop :=
  encoder_parts t /\ exists heads m lin l2 input n res1 norm1 res2 norm2 att kemb vemb t0,
    transformer_encoder_layer heads m lin l2 input n res1 norm1 res2 norm2 att kemb vemb = Some t0 /\ encoder_like t t0.
Definition encoder_with_k (k : word) (t : encoder) : encoder :=
  Encoder (en_kemb t) (en_vemb t) (en_att t) (en_in t) (head_with_k k <$> en_heads t) (en_res1 t) (en_res2 t) (en_norm1 t) (en_norm2 t) (en_l2 t)
          (model_with_k k (en_m t)) (model_with_k k (en_lin t)).
Definition decoder_like (a b : decoder) : Prop :=
  de_kemb a = de_kemb b /\ de_vemb a = de_vemb b /\ de_in a = de_in b /\ de_left a = de_left b /\ Forall2 head_like (de_heads a) (de_heads b)
  /\ de_att a = de_att b /\ de_res a = de_res b /\ de_norm a = de_norm b /\ de_enc_in a = de_enc_in b /\ Forall2 l2_like (de_l2 a) (de_l2 b)
  /\ model_like (de_lin a) (de_lin b) /\ encoder_like (de_e a) (de_e b).
Definition reach_decoder (t : decoder) : Prop :=
  Forall reach_head (de_heads t) /\ Forall reach_l2 (de_l2 t) /\ reach_model (de_lin t) /\ encoder_parts (de_e t)
  /\ exists input lft n1 n2 res1 norm1 res2 norm2 res3 norm3 att1 att2 enc_in m lin1 lin2 heads l2 dk dv ek ev t0,
    transformer_decoder_layer input lft n1 n2 res1 norm1 res2 norm2 res3 norm3 att1 att2 enc_in m lin1 lin2 heads l2 dk dv ek ev = Some t0
    /\ decoder_like t t0.
Definition decoder_with_k (k : word) (t : decoder) : decoder :=
  Decoder (de_kemb t) (de_vemb t) (de_in t) (de_left t) (head_with_k k <$> de_heads t) (de_att t) (de_res t) (de_norm t) (de_enc_in t) (de_l2 t)
          (model_with_k k (de_lin t)) (encoder_with_k k (de_e t)).

(** * Dueling networks *)
Definition dqn_like (a b : dqn) : Prop :=
  q_in a = q_in b /\ q_actions a = q_actions b /\ q_atoms a = q_atoms b /\ q_vmin a = q_vmin b /\ q_vmax a = q_vmax b
  /\ model_like (q_shared a) (q_shared b) /\ model_like (q_vh a) (q_vh b) /\ model_like (q_vl a) (q_vl b) /\ model_like (q_ah a) (q_ah b)
  /\ model_like (q_al a) (q_al b).
(** the flag is_qr can be any *)
Definition reach_dqn (d : dqn) : Prop :=
  reach_model (q_shared d) /\ reach_model (q_vh d) /\ reach_model (q_vl d) /\ reach_model (q_ah d) /\ reach_model (q_al d)
  /\ exists input actions atoms vmin vmax shared vh ah vl al d0, dqn_init input actions atoms vmin vmax shared vh ah vl al = Some d0 /\ dqn_like d d0.
Definition dqn_with_k (k : word) (d : dqn) : dqn :=
  Dqn (q_qr d) (q_in d) (q_actions d) (q_atoms d) (q_vmin d) (q_vmax d) (model_with_k k (q_shared d)) (model_with_k k (q_vh d))
      (model_with_k k (q_vl d)) (model_with_k k (q_ah d)) (model_with_k k (q_al d)).

(** * Variational autoencoders *)
Definition reach_vae (v : vae) : Prop :=
  reach_model (v_enc v) /\ reach_model (v_dec v) /\ exists enc dec, vae_model enc dec (v_latent v) <> None /\ model_like (v_enc v) enc /\ model_like (v_dec v) dec.
Definition vae_with_k (k : word) (v : vae) : vae := Vae (v_latent v) (model_with_k k (v_enc v)) (model_with_k k (v_dec v)).

(** * EfficientZero models *)
Definition reach_ez (m : ez) : Prop :=
  Forall reach_model (z_models m) /\ reach_rmodel (z_rmodel m) /\ (forall a b, z_p m = Some (a, b) -> reach_model a /\ reach_model b)
  /\ ez_init (z_models m) (z_rmodel m) (z_p m) (z_batch m) (z_window m) <> None.
Definition ez_with_k (k : word) (batch : Z) (m : ez) : ez :=
  Ez batch (z_window m) ((fun p => (model_with_k k p.1, model_with_k k p.2)) <$> z_p m) (model_with_k k <$> z_models m) (z_rmodel m).
