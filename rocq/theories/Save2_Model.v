(** Model of the binary save and load functions of the recurrent layers and networks, of the transformers, of the dueling networks, of the
    variational autoencoders, of EfficientZero models and of vectors.  The conventions are those of Save_Model. *)
From Verif Require Export Save_Model.
Open Scope Z_scope.

(** * Recurrent layers: recurrent_layers.c *)
Record lcfg := Lcfg { l_in : Z; l_out : Z; l_drop1 : Z; l_thr1 : word; l_drop2 : Z; l_thr2 : word; l_layer : Z; l_window : Z; l_res : Z;
                      l_norm : Z; l_cells : Z; l_train : Z; l_ff : Z }.
(** w[j], u[j], biases[j] *)
Record gate := Gate { g_w : list word; g_u : list word; g_b : list word }.
(** w_scores[j], w_indices[j], u_indices[j], u_scores[j] *)
Record egate := Egate { e_ws : list word; e_wi : list word; e_ui : list word; e_us : list word }.
(** l_edge: no entry when the arrays of pointers are NULL, [None] for pointers that malloc lft uninitialised.  The arrays
    w_active_output_neurons and u_active_output_neurons, which are not saved but computed from the indices, are lft out *)
Record lstm := Lstm { l_cfg : lcfg; l_k : word; l_gates : list gate; l_edge : list (option egate); l_bns : option (list bn) }.
Definition lstm_edge (c : lcfg) : bool := bool_decide (l_train c = EDGE_POPUP) || bool_decide (l_ff c = EDGE_POPUP).
(** recurrent_layers.c:41-248 recurrent_lstm; rnd i gives the initial weights *)
Definition recurrent_lstm (rnd : nat -> word) (c : lcfg) : option lstm :=
  _ ← reject (bool_decide (l_layer c < 0 \/ l_in c <= 0 \/ l_out c <= 0));
  _ ← reject (bool_decide (l_window c < 2));
  _ ← (if bool_decide (l_norm c = GROUP_NORMALIZATION) then
         if bool_decide (l_cells c > l_window c) then None else r ← rem (l_window c) (l_cells c); reject (bool_decide (r <> 0))
       else Some tt);
  _ ← reject (bool_decide (l_res c = LSTM_RESIDUAL /\ l_in c <> l_out c));
  bns ← (if bool_decide (l_norm c = GROUP_NORMALIZATION) then
           m ← quot (l_window c) (l_cells c); l ← mapM (fun _ : nat => batch_normalization (l_cells c) (l_out c)) (seq 0 (Z.to_nat m)); Some (Some l)
         else Some None);
  let c := Lcfg (l_in c) (l_out c) (l_drop1 c) (if decide (l_drop1 c = NO_DROPOUT) then f0 else l_thr1 c) (l_drop2 c)
                (if decide (l_drop2 c = NO_DROPOUT) then f0 else l_thr2 c) (l_layer c) (l_window c) (l_res c) (l_norm c) (l_cells c)
                (l_train c) (l_ff c) in
  let wi := l_out c * l_in c in let ui := l_out c * l_out c in
  Some (Lstm c f1 (replicate 4 (Gate (fresh_rnd wi rnd) (fresh_rnd ui rnd) (fresh_arr (l_out c) f0)))
     (if lstm_edge c then
        replicate 4 (if decide (l_train c = EDGE_POPUP) then
                       Some (Egate (fresh_arr wi f0) (Z.of_nat <$> seq 0 (Z.to_nat wi)) (Z.of_nat <$> seq 0 (Z.to_nat ui)) (fresh_arr ui f0))
                     else None)
      else []) bns).
(** recurrent_layers.c:670-858 save_lstm *)
Definition save_lstm (l : lstm) (w : file) : option file :=
  let c := l_cfg l in
  w ← fwrites [l_ff c; l_k l; l_train c; l_res c; l_norm c; l_cells c; l_in c; l_out c; l_layer c; l_drop1 c; l_drop2 c; l_window c; l_thr1 c;
               l_thr2 c] w;
  w ← save_all 4 (l_gates l) (fun g w => w ← fwrite (Some (g_w g)) (l_out c * l_in c) w; w ← fwrite (Some (g_u g)) (l_out c * l_out c) w;
                                        fwrite (Some (g_b g)) (l_out c) w) w;
  w ← (if lstm_edge c then
         save_all 4 (l_edge l) (fun e w => e ← e; w ← fwrite (Some (e_ws e)) (l_in c * l_out c) w; w ← fwrite (Some (e_wi e)) (l_in c * l_out c) w;
                                          w ← fwrite (Some (e_ui e)) (l_out c * l_out c) w; fwrite (Some (e_us e)) (l_out c * l_out c) w) w
       else Some w);
  if bool_decide (l_norm c = GROUP_NORMALIZATION) then m ← quot (l_window c) (l_cells c); b ← l_bns l; save_all m b save_bn w else Some w.
(** recurrent_layers.c:867-1107 load_lstm; get_used_outputs_lstm (1942-1947) only sets to 1 entries of arrays of ones *)
Definition load_lstm (rnd : nat -> word) (w : file) : option (lstm * file) :=
  '(ff, w) ← fread1 w; '(k, w) ← fread1 w; '(train, w) ← fread1 w; '(res, w) ← fread1 w; '(norm, w) ← fread1 w; '(cells, w) ← fread1 w;
  '(input, w) ← fread1 w; '(output, w) ← fread1 w; '(layer, w) ← fread1 w; '(drop1, w) ← fread1 w; '(drop2, w) ← fread1 w;
  '(window, w) ← fread1 w; '(thr1, w) ← fread1 w; '(thr2, w) ← fread1 w;
  let c := Lcfg input output drop1 thr1 drop2 thr2 layer window res norm cells train ff in
  '(gates, w) ← load_all 4 (fun w => '(a, w) ← fread (output * input) w; '(u, w) ← fread (output * output) w; '(b, w) ← fread output w;
                                     Some (Gate a u b, w)) w;
  '(edges, w) ← (if lstm_edge c then
                   load_all 4 (fun w => '(ws, w) ← fread (input * output) w; '(wi, w) ← fread (input * output) w;
                                        '(ui, w) ← fread (output * output) w; '(us, w) ← fread (output * output) w;
                                        Some (Egate ws wi ui us, w)) w
                 else Some ([], w));
  '(bns, w) ← (if bool_decide (norm = GROUP_NORMALIZATION) then m ← quot window cells; '(b, w) ← load_all m load_bn w; Some (Some b, w)
               else Some (None, w));
  l ← recurrent_lstm rnd c;
  gs ← for_loop 4 0 (fun i gs => s ← rd gates i; d ← rd gs i;
                       a ← copy_array (g_w s) (g_w d) (output * input); u ← copy_array (g_u s) (g_u d) (output * output);
                       b ← copy_array (g_b s) (g_b d) output; wr gs i (Gate a u b)) (l_gates l);
  es ← (if lstm_edge c then
          for_loop 4 0 (fun i es => s ← rd edges i; d ← rd es i; d ← d;
                          ws ← copy_array (e_ws s) (e_ws d) (output * input); us ← copy_array (e_us s) (e_us d) (output * output);
                          ui ← copy_array (e_ui s) (e_ui d) (output * output); wi ← copy_array (e_wi s) (e_wi d) (output * input);
                          wr es i (Some (Egate ws wi ui us))) (l_edge l)
        else Some (l_edge l));
  Some (Lstm (l_cfg l) k gs es (if bool_decide (norm = GROUP_NORMALIZATION) then bns else l_bns l), w).

(** * Recurrent networks: rmodel.c *)
Record rmodel := Rmodel { rm_layers : Z; rm_window : Z; rm_mode : Z; rm_lstms : list lstm }.
Definition lstm_layer (l : lstm) : Z := l_layer (l_cfg l).
(** rmodel.c:97-102: the sizes of consecutive layers match *)
Fixpoint chained (cs : list lcfg) : bool :=
  match cs with a :: (b :: _) as cs => bool_decide (l_in b = l_out a) && chained cs | _ => true end.
(** rmodel.c:38-115 recurrent_network *)
Definition recurrent_network (layers : Z) (lstms : list lstm) (window mode : Z) : option rmodel :=
  _ ← reject (bool_decide (layers <= 0 \/ lstms = []));
  _ ← reject (negb (forallb (fun c => bool_decide (l_window c = window)) (l_cfg <$> lstms)));
  lstms ← xsort lstm_layer lstms;
  _ ← sequential layers (l_layer <$> (l_cfg <$> lstms));
  _ ← reject (negb (chained (l_cfg <$> lstms)));
  Some (Rmodel layers window mode lstms).
(** rmodel.c:341-399 save_rmodel *)
Definition save_rmodel (m : rmodel) (w : file) : option file :=
  w ← fwrites [rm_layers m; Z.of_nat (length (rm_lstms m)); rm_window m; rm_mode m] w;
  save_all (Z.of_nat (length (rm_lstms m))) (rm_lstms m) save_lstm w.
(** rmodel.c:481-533 load_rmodel_with_file_already_opened *)
Definition load_rmodel_opened (rnd : nat -> word) (w : file) : option (rmodel * file) :=
  '(layers, w) ← fread1 w; '(n, w) ← fread1 w; '(window, w) ← fread1 w; '(mode, w) ← fread1 w;
  '(lstms, w) ← load_all n (load_lstm rnd) w; m ← recurrent_network layers lstms window mode; Some (m, w).

(** * Scaled l2 normalization: scaled_l2_norm_layers.c *)
Record l2norm := L2 { l2_dim : Z; l2_train : Z; l2_g : word }.
(** scaled_l2_norm_layers.c:34-54 scaled_l2_normalization_layer; root n is the pattern of sqrtf(n) *)
Definition l2_layer (root : Z -> word) (dim : Z) : option l2norm := if decide (dim <= 0) then None else Some (L2 dim GRADIENT_DESCENT (root dim)).
(** scaled_l2_norm_layers.c:77-120 save_scaled_l2_norm, 129-165 load_scaled_l2_norm *)
Definition save_l2 (l : l2norm) (w : file) : option file := fwrites [l2_dim l; l2_train l; l2_g l] w.
Definition load_l2 (root : Z -> word) (w : file) : option (l2norm * file) :=
  '(dim, w) ← fread1 w; '(train, w) ← fread1 w; '(g, w) ← fread1 w; l ← l2_layer root dim; Some (L2 (l2_dim l) train g, w).

(** * Transformer encoders: transformer_encoder.c *)
Definition TRANSFORMER_RESIDUAL := 1. Definition TRANSFORMER_NO_RESIDUAL := 0.
(** q[i], k[i], v[i] *)
Record ahead := Head { h_q : model; h_k : model; h_v : model }.
Record encoder := Encoder { en_kemb : Z; en_vemb : Z; en_att : Z; en_in : Z; en_heads : list ahead; en_res1 : Z; en_res2 : Z; en_norm1 : Z;
                            en_norm2 : Z; en_l2 : list l2norm; en_m : model; en_lin : model }.
Definition is_l2 (flag : Z) : bool := bool_decide (flag = SCALED_L2_NORMALIZATION).
Definition b2n (b : bool) : nat := if b then 1%nat else 0%nat.
(** transformer_encoder.c:54-185 transformer_encoder_layer.  l2 is [None] when NULL; the encoder uses the first n_l2 of its layers, and n_head
    heads.  The pointers to the networks are not NULL *)
Definition transformer_encoder_layer (heads : list ahead) (m lin : model) (l2 : option (list l2norm)) (input n_head res1 norm1 res2 norm2 att kemb vemb : Z)
  : option encoder :=
  _ ← reject (bool_decide (l2 = None /\ (norm1 <> NO_NORMALIZATION \/ norm2 <> NO_NORMALIZATION)));
  _ ← reject (bool_decide (l2 <> None /\ norm1 <> SCALED_L2_NORMALIZATION /\ norm2 <> SCALED_L2_NORMALIZATION));
  _ ← reject (bool_decide (input <= 0 \/ n_head <= 0 \/ kemb <= 0 \/ vemb <= 0));
  r ← rem input n_head; _ ← reject (bool_decide (r <> 0));
  let l := default [] l2 in
  _ ← (if is_l2 norm1 then x ← rd l 0; reject (bool_decide (l2_dim x <> output_dimension lin)) else Some tt);
  _ ← (if is_l2 norm2 then x ← rd l (b2n (is_l2 norm1)); reject (bool_decide (l2_dim x <> output_dimension m)) else Some tt);
  _ ← reject (bool_decide (n_head > Z.of_nat (length heads)));
  Some (Encoder kemb vemb att input (take (Z.to_nat n_head) heads)
          (if decide (res1 = TRANSFORMER_RESIDUAL) then res1 else TRANSFORMER_NO_RESIDUAL)
          (if decide (res2 = TRANSFORMER_RESIDUAL) then res2 else TRANSFORMER_NO_RESIDUAL)
          (if is_l2 norm1 then norm1 else NO_NORMALIZATION) (if is_l2 norm2 then norm2 else NO_NORMALIZATION)
          (take (b2n (is_l2 norm1) + b2n (is_l2 norm2)) l) m lin).
(** three networks one after the other *)
Definition save_head (h : ahead) (w : file) : option file := w ← save_model (h_q h) w; w ← save_model (h_k h) w; save_model (h_v h) w.
Definition load_head (r : rands) (w : file) : option (ahead * file) :=
  '(q, w) ← load_model_opened r w; '(k, w) ← load_model_opened r w; '(v, w) ← load_model_opened r w; Some (Head q k v, w).
(** transformer_encoder.c:380-471 save_transformer_encoder: n_l2 and n_head are the lengths of the arrays *)
Definition save_encoder (t : encoder) (w : file) : option file :=
  w ← fwrites [en_kemb t; en_vemb t; en_att t; en_in t; Z.of_nat (length (en_heads t)); en_res1 t; en_res2 t; en_norm1 t; en_norm2 t] w;
  w ← save_all (Z.of_nat (length (en_l2 t))) (en_l2 t) save_l2 w;
  w ← save_all (Z.of_nat (length (en_heads t))) (en_heads t) save_head w;
  w ← save_model (en_m t) w; save_model (en_lin t) w.
(** transformer_encoder.c:480-565 load_transformer_encoder *)
Definition load_encoder (r : rands) (root : Z -> word) (w : file) : option (encoder * file) :=
  '(kemb, w) ← fread1 w; '(vemb, w) ← fread1 w; '(att, w) ← fread1 w; '(input, w) ← fread1 w; '(n, w) ← fread1 w; '(res1, w) ← fread1 w;
  '(res2, w) ← fread1 w; '(norm1, w) ← fread1 w; '(norm2, w) ← fread1 w;
  let count := (b2n (is_l2 norm1) + b2n (is_l2 norm2))%nat in
  '(l2, w) ← load_all (Z.of_nat count) (load_l2 root) w;
  '(heads, w) ← load_all n (load_head r) w; '(m, w) ← load_model_opened r w; '(lin, w) ← load_model_opened r w;
  t ← transformer_encoder_layer heads m lin (if decide (count = 0%nat) then None else Some l2) input n res1 norm1 res2 norm2 att kemb vemb;
  Some (t, w).

(** * Transformer decoders: transformer_decoder.c *)
Record decoder := Decoder { de_kemb : Z; de_vemb : Z; de_in : Z; de_left : Z; de_heads : list ahead; de_att : Z; de_res : Z; de_norm : Z;
                            de_enc_in : Z; de_l2 : list l2norm; de_lin : model; de_e : encoder }.
(** transformer_decoder.c:58-133 transformer_decoder_layer.  The first n_head1 heads and the first l2 layer (if normalization_flag1 asks for it)
    are those of the decoder, the rest are passed to its encoder: q+n_head1, &l2[count]; this pointer is NULL only if l2 is and count is 0 *)
Definition transformer_decoder_layer (input lft n_head1 n_head2 res1 norm1 res2 norm2 res3 norm3 att1 att2 enc_in : Z) (m lin1 lin2 : model)
  (heads : list ahead) (l2 : option (list l2norm)) (dk dv ek ev : Z) : option decoder :=
  _ ← reject (bool_decide (n_head1 <= 0 \/ input <= 0 \/ enc_in <= 0 \/ n_head2 <= 0));
  r ← rem input n_head1; _ ← reject (bool_decide (r <> 0));
  r ← rem input (n_head1 * dv); _ ← reject (bool_decide (r <> 0));
  let count := b2n (is_l2 norm1) in
  e ← transformer_encoder_layer (drop (Z.to_nat n_head1) heads) m lin2
        (match l2 with Some l => Some (drop count l) | None => if is_l2 norm1 then Some [] else None end) enc_in n_head2 res2 norm2 res3 norm3 att2 ek ev;
  _ ← reject (bool_decide (n_head1 > Z.of_nat (length heads)) || bool_decide (Z.of_nat count > Z.of_nat (length (default [] l2))));
  Some (Decoder dk dv input lft (take (Z.to_nat n_head1) heads) att1 (if decide (res1 = TRANSFORMER_RESIDUAL) then res1 else TRANSFORMER_NO_RESIDUAL)
          (if is_l2 norm1 then norm1 else NO_NORMALIZATION) enc_in (take count (default [] l2)) lin1 e).
(** transformer_decoder.c:237-335 save_transformer_decoder *)
Definition save_decoder (t : decoder) (w : file) : option file :=
  w ← fwrites [de_kemb t; de_vemb t; de_in t; de_left t; Z.of_nat (length (de_heads t)); de_att t; de_res t; de_norm t; de_enc_in t] w;
  w ← save_all (Z.of_nat (length (de_l2 t))) (de_l2 t) save_l2 w;
  w ← save_all (Z.of_nat (length (de_heads t))) (de_heads t) save_head w;
  w ← save_model (de_lin t) w; save_encoder (de_e t) w.
(** transformer_decoder.c:344-467 load_transformer_decoder.  copy_model and copy_scaled_l2_norm are taken as the identity on what is saved;
    i != 1 is not tested after the last header field, but reading it must have set it *)
Definition load_decoder (r : rands) (root : Z -> word) (w : file) : option (decoder * file) :=
  '(kemb, w) ← fread1 w; '(vemb, w) ← fread1 w; '(input, w) ← fread1 w; '(lft, w) ← fread1 w; '(n, w) ← fread1 w; '(att, w) ← fread1 w;
  '(res, w) ← fread1 w; '(norm, w) ← fread1 w; '(enc_in, w) ← fread1 w;
  '(l2, w) ← load_all (Z.of_nat (b2n (is_l2 norm))) (load_l2 root) w;
  '(heads, w) ← load_all n (load_head r) w; '(lin, w) ← load_model_opened r w; '(e, w) ← load_encoder r root w;
  let total := l2 ++ en_l2 e in
  t ← transformer_decoder_layer input lft n (Z.of_nat (length (en_heads e))) res norm (en_res1 e) (en_norm1 e) (en_res2 e) (en_norm2 e) att (en_att e)
        enc_in (en_m e) lin (en_lin e) (heads ++ en_heads e) (if decide (total = []) then None else Some total) kemb vemb (en_kemb e) (en_vemb e);
  Some (t, w).

(** * Transformers: transformer.c *)
(** encoder_decoder_connections is an array of n_te pointers to arrays of n_td ints *)
Record transformer := Transformer { tr_te : list encoder; tr_td : list decoder; tr_conn : option (list (list word)) }.
(** transformer.c:287-347 save_transf.  addr j is the first word of the pointer encoder_decoder_connections[j]: fwrite is given the address of
    the pointer, and returns n_td *)
Definition save_transf (addr : nat -> word) (t : transformer) (w : file) : option file :=
  let n_te := Z.of_nat (length (tr_te t)) in let n_td := Z.of_nat (length (tr_td t)) in
  w ← fwrites [n_te; n_td] w;
  w ← (if bool_decide (n_td <> 0) && bool_decide (tr_conn t <> None) then
         for_loop (Z.to_nat n_te) 0 (fun j w => if decide (n_td <> 1) then None else fwrites [addr j] w) w
       else Some w);
  w ← save_all n_te (tr_te t) save_encoder w; save_all n_td (tr_td t) save_decoder w.
(** transformer.c:356-398 load_transf: room is allocated for one row pointer only *)
Definition load_transf (r : rands) (root : Z -> word) (w : file) : option (transformer * file) :=
  '(n_te, w) ← fread1 w; '(n_td, w) ← fread1 w;
  '(conn, w) ← (if decide (n_td <> 0) then
                  '(rows, w) ← for_loop (Z.to_nat n_te) 0 (fun j s => if decide (j <> 0%nat \/ n_td <> 1) then None else
                                 '(x, w) ← fread n_td s.2; Some (s.1 ++ [x], w)) ([], w);
                  Some (Some rows, w)
                else Some (None, w));
  '(te, w) ← load_all n_te (load_encoder r root) w; '(td, w) ← load_all n_td (load_decoder r root) w;
  _ ← reject (bool_decide (n_te = 0)); Some (Transformer te td conn, w).

(** * Dueling categorical networks: dueling_categorical_dqn.c *)
Record dqn := Dqn { q_qr : Z; q_in : Z; q_actions : Z; q_atoms : Z; q_vmin : word; q_vmax : word; q_shared : model; q_vh : model; q_vl : model;
                    q_ah : model; q_al : model }.
(** model.c:10073-10098 get_input_layer_size: the input of the layer of least index, below layers+1 *)
Definition least {A} (layer size : A -> Z) (l : list A) (s : Z * Z) : Z * Z :=
  foldl (fun s x => if decide (layer x < s.1) then (layer x, size x) else s) s l.
Definition input_size (m : model) : Z :=
  let s := least f_layer f_in (f_cfg <$> m_fcls m) (m_layers m + 1, -1) in
  let s := least c_layer (fun c => c_channels c * c_irows c * c_icols c) (fst <$> (cshape <$> m_cls m)) s in
  (least (fun r => default 0 (head (rl_layers r))) (fun r => rc_channels r * rc_rows r * rc_cols r) (rshape <$> m_rls m) s).2.
(** a network that is one fully connected layer without activation nor normalization: dueling_categorical_dqn.c:70-87 *)
Definition is_linear (m : model) : bool :=
  match m_rls m, m_cls m, f_cfg <$> m_fcls m with [], [], [c] => bool_decide (f_act c = 0 /\ f_norm c = 0) | _, _, _ => false end.
(** dueling_categorical_dqn.c:24-160 dueling_categorical_dqn_init; the betas of the five networks, not saved, are equal *)
Definition dqn_init (input actions atoms : Z) (vmin vmax : word) (shared vh ah vl al : model) : option dqn :=
  _ ← reject (bool_decide (m_layers shared <= 0 \/ m_layers vh <= 0 \/ m_layers ah <= 0 \/ m_layers vl <> 1 \/ m_layers al <> 1));
  _ ← reject (bool_decide (input <= 0)); _ ← reject (bool_decide (atoms <= 1)); _ ← reject (bool_decide (actions <= 0));
  _ ← reject (float_gt vmin vmax);
  _ ← reject (bool_decide (input_size shared <> input));
  _ ← reject (bool_decide (actions * atoms <> output_dimension al));
  _ ← reject (bool_decide (output_dimension vl <> atoms));
  _ ← reject (negb (is_linear vl)); _ ← reject (negb (is_linear al));
  _ ← reject (bool_decide (output_dimension shared <> input_size vh)); _ ← reject (bool_decide (output_dimension shared <> input_size ah));
  _ ← reject (bool_decide (output_dimension vh <> input_size vl)); _ ← reject (bool_decide (output_dimension ah <> input_size al));
  Some (Dqn 0 input actions atoms vmin vmax shared vh vl ah al).
Definition dqn_header (d : dqn) : list word := [q_qr d; q_in d; q_actions d; q_atoms d; q_vmin d; q_vmax d].
Definition save_dqn_models (d : dqn) (w : file) : option file :=
  w ← save_model (q_shared d) w; w ← save_model (q_vh d) w; w ← save_model (q_vl d) w; w ← save_model (q_ah d) w; save_model (q_al d) w.
(** dueling_categorical_dqn.c:267-369 save_dueling_categorical_dqn *)
Definition save_dqn (d : dqn) (w : file) : option file := w ← fwrites (dqn_header d) w; save_dqn_models d w.
(** dueling_categorical_dqn.c:524-640 save_dueling_categorical_dqn_given_directory: the files are <directory>/n.bin and n.bin *)
Definition save_dqn_given_directory (d : dqn) (dw w : file) : option (file * file) :=
  dw ← fwrites (dqn_header d) dw; w ← save_dqn_models d w; Some (dw, w).
(** dueling_categorical_dqn.c:380-485 load_dueling_categorical_dqn *)
Definition load_dqn (r : rands) (w : file) : option (dqn * file) :=
  '(qr, w) ← fread1 w; '(input, w) ← fread1 w; '(actions, w) ← fread1 w; '(atoms, w) ← fread1 w; '(vmin, w) ← fread1 w; '(vmax, w) ← fread1 w;
  '(shared, w) ← load_model_opened r w; '(vh, w) ← load_model_opened r w; '(vl, w) ← load_model_opened r w; '(ah, w) ← load_model_opened r w;
  '(al, w) ← load_model_opened r w;
  d ← dqn_init input actions atoms vmin vmax shared vh ah vl al;
  Some (Dqn qr (q_in d) (q_actions d) (q_atoms d) (q_vmin d) (q_vmax d) (q_shared d) (q_vh d) (q_vl d) (q_ah d) (q_al d), w).

(** * Variational autoencoders: vae_model.c *)
Record vae := Vae { v_latent : Z; v_enc : model; v_dec : model }.
(** vae_model.c:39-59 variational_auto_encoder_model (copy_model taken as the identity on what is saved) *)
Definition vae_model (enc dec : model) (latent : Z) : option vae :=
  if decide (latent = 0 \/ latent * 2 <> output_dimension enc) then None else Some (Vae latent enc dec).
(** vae_model.c:167-172: the input of the first layer of each kind *)
Definition first_size (m : model) : Z :=
  if bool_decide (0 ∈ concat (rl_layers <$> (rshape <$> m_rls m))) then match rshape <$> m_rls m with r :: _ => rc_channels r * rc_rows r * rc_cols r | [] => 0 end
  else if bool_decide (0 ∈ (fun x => c_layer x.1) <$> (cshape <$> m_cls m)) then
    match cshape <$> m_cls m with x :: _ => c_channels x.1 * c_irows x.1 * c_icols x.1 | [] => 0 end
  else match f_cfg <$> m_fcls m with c :: _ => f_in c | [] => 0 end.
(** vae_model.c:158-161 save_vae_model, into two files with contents wn and wm *)
Definition save_vae (v : vae) (wn wm : file) : option (file * file) := wn ← save_model (v_enc v) wn; wm ← save_model (v_dec v) wm; Some (wn, wm).
(** vae_model.c:164-181 load_vae_model *)
Definition load_vae (r : rands) (wn wm : file) : option vae :=
  enc ← load_model r wn; dec ← load_model r wm; vae_model enc dec (first_size dec).

(** * EfficientZero models: efficientzeromodel.c *)
Record ez := Ez { z_batch : Z; z_window : Z; z_p : option (model * model); z_models : list model; z_rmodel : rmodel }.
(** efficientzeromodel.c:28-47 init_efficientzero_model: rapresentation_h, dynamics_g, prediction_f, prediction_f_policy, prediction_f_value,
    reward_prediction_model, reward_prediction_temporal_model (in this order, none NULL), p1 and p2 (both NULL or none) *)
Definition ez_init (ms : list model) (rm : rmodel) (p : option (model * model)) (threads window : Z) : option ez :=
  if decide (threads < 1 \/ window < 2 \/ length ms <> 7%nat) then None else Some (Ez threads window p ms rm).
(** efficientzeromodel.c:776-855 save_efficientzero_model *)
Definition save_ez (m : ez) (w : file) : option file :=
  let flag := if z_p m then 1 else 0 in
  w ← fwrites [z_batch m; z_window m; flag; flag] w;
  w ← match z_p m with Some (p1, p2) => w ← save_model p1 w; save_model p2 w | None => Some w end;
  w ← save_all 7 (z_models m) save_model w; save_rmodel (z_rmodel m) w.
(** efficientzeromodel.c:857-930 load_efficientzeromodel: a batch size is given, the one in the file is ignored.  p1 and p2 are saved with equal
    flags, and the constructor exits otherwise *)
Definition load_ez (r : rands) (batch : Z) (w : file) : option (ez * file) :=
  '(_, w) ← fread1 w; '(window, w) ← fread1 w; '(p1, w) ← fread1 w; '(p2, w) ← fread1 w;
  '(p, w) ← (if decide (p1 <> 0) then if decide (p2 <> 0) then
               '(a, w) ← load_model_opened r w; '(b, w) ← load_model_opened r w; Some (Some (a, b), w) else None
             else if decide (p2 <> 0) then None else Some (None, w));
  '(ms, w) ← load_all 7 (load_model_opened r) w; '(rm, w) ← load_rmodel_opened (rd_w r) w;
  m ← ez_init ms rm p batch window; Some (m, w).

(** * Vectors: vector.c *)
Record vec := Vec { ve_in : Z; ve_size : Z; ve_out : Z; ve_action : Z; ve_act : Z; ve_drop : Z; ve_index : Z; ve_thr : word; ve_v : arr }.
(** vector.c:102-207 save_vector *)
Definition save_vector (v : vec) (w : file) : option file :=
  w ← fwrites [ve_in v; ve_size v; ve_out v; ve_action v; ve_act v; ve_drop v; ve_index v; ve_thr v] w;
  match ve_v v with None => fwrites [1] w | Some l => w ← fwrites [0] w; fwrite (Some l) (ve_size v) w end.
(** vector.c:209-278 load_vector: the array is read into an inner variable v, and the outer one, NULL, is passed on *)
Definition load_vector (w : file) : option (vec * file) :=
  '(input, w) ← fread1 w; '(size, w) ← fread1 w; '(output, w) ← fread1 w; '(action, w) ← fread1 w; '(act, w) ← fread1 w; '(drp, w) ← fread1 w;
  '(index, w) ← fread1 w; '(thr, w) ← fread1 w; '(null, w) ← fread1 w;
  let v : arr := None in
  w ← (if decide (null = 0) then '(_, w) ← fread size w; Some w else Some w);
  Some (Vec input size output action act drp index thr v, w).
