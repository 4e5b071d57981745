(** Model of the parsers of model descriptions: parser.c:302-476 parse_model_file, 485-658 parse_model_without_learning_parameters_file,
    667-840 parse_model_without_arrays_file, 849-1016 parse_model_str, 1025-1192 parse_model_without_learning_parameters_str.  They differ in the
    constructors they call for the layers.

    A text is its characters, a missing file is None and gives no model.  atof is an arbitrary function.  The constructors of the layers are
    arbitrary partial functions of the numbers they get, so are the conversions of a float to an int.  A residual block is its activation
    flag and its layers.  Cells that were not written yet are None; reading them and writing outside of an array is None for the whole run.
    Left out: network(), of which only the arguments are modelled, and residual(). *)
From Verif Require Export Parse_Model.
Open Scope nat_scope.

Definition conv_name : list ascii := String.list_ascii_of_string "convolutional".
Definition full_name : list ascii := String.list_ascii_of_string "fully-connected".
Definition rconv_name : list ascii := String.list_ascii_of_string "rconvolutional".
Definition res_name : list ascii := String.list_ascii_of_string "residual".

(** !strcmp(lit, buf) for a literal without NUL: cells are compared up to the first difference or the end of the literal *)
Fixpoint same_string (lit : list ascii) (buf : list (option ascii)) : option bool :=
  match buf with
  | Some c :: buf => match lit with [] => Some (bool_decide (c = NUL)) | x :: lit => if decide (x = c) then same_string lit buf else Some false end
  | _ => None
  end.

Section desc.
Context {F L C : Type} (atof : list ascii -> F) (mk_fcl : list F -> option L) (mk_cl : list F -> option C) (toint : F -> option Z).

(** the characters of a buffer up to its first NUL, as atof reads them *)
Fixpoint text_of (buf : list (option ascii)) : option (list ascii) :=
  match buf with Some c :: buf => if decide (c = NUL) then Some [] else l ← text_of buf; Some (c :: l) | _ => None end.

(** parser.c:303-335: temp_float, counter_int, flag, flag_n, the numbers of layers, the arrays of layers, cl_flag, rl_flag, rl_flag2, c_fcls, c_cls *)
Record core := Core {
  k_floats : list (option F); k_int : nat; k_flag : nat; k_body : bool;
  k_nf : nat; k_nc : nat; k_nt : nat; k_nr : nat;
  k_fcls : list (option L); k_cls : list (option C);
  k_kind : list (option nat); k_act : list (option Z); k_block : list (option Z);
  k_cf : nat; k_cc : nat }.
Definition start : core := Core (replicate 256 None) 0 0 false 0 0 0 0 [] [] (replicate 1024 None) (replicate 1024 None) (replicate 1024 None) 0 0.

(** parser.c:343-365, after temp2[counter] = '\0': a name of the first line is counted, any other field is a number *)
Definition on_field (buf : list (option ascii)) (k : core) : option core :=
  let 'Core fs i fl body nf nc nt nr fcls cls kd ac bl cf cc := k in
  if body then t ← text_of buf; fs ← wr fs i (Some (atof t)); Some (Core fs (S i) fl body nf nc nt nr fcls cls kd ac bl cf cc)
  else
    b ← same_string conv_name buf; if (b : bool) then Some (Core fs i fl body nf (S nc) (S nt) nr fcls cls kd ac bl cf cc) else
    b ← same_string full_name buf; if (b : bool) then Some (Core fs i fl body (S nf) nc nt nr fcls cls kd ac bl cf cc) else
    b ← same_string rconv_name buf; if (b : bool) then Some (Core fs i fl body nf nc (S nt) nr fcls cls kd ac bl cf cc) else
    b ← same_string res_name buf; if (b : bool) then Some (Core fs i fl body nf nc nt (S nr) fcls cls kd ac bl cf cc) else Some k.
(** the first n numbers *)
Definition numbers (n : nat) (fs : list (option F)) : option (list F) := mapM (fun i => x ← rd fs i; x) (seq 0 n).
Definition int_at (fs : list (option F)) (i : nat) : option Z := x ← rd fs i; x ← x; toint x.
(** parser.c:369-418 *)
Definition on_newline (buf : list (option ascii)) (k : core) : option core :=
  let 'Core fs i fl body nf nc nt nr fcls cls kd ac bl cf cc := k in
  if body then
    match fl with
    | 0 =>
      b ← same_string conv_name buf; if (b : bool) then kd ← wr kd cc (Some 1); Some (Core fs 0 1 true nf nc nt nr fcls cls kd ac bl cf cc) else
      b ← same_string full_name buf; if (b : bool) then Some (Core fs 0 2 true nf nc nt nr fcls cls kd ac bl cf cc) else
      b ← same_string rconv_name buf; if (b : bool) then kd ← wr kd cc (Some 3); Some (Core fs 0 3 true nf nc nt nr fcls cls kd ac bl cf cc) else
      Some (Core fs 0 0 true nf nc nt nr fcls cls kd ac bl cf cc)
    | 2 => ps ← numbers 11 fs; l ← mk_fcl ps; fcls ← wr fcls cf (Some l); Some (Core fs 0 0 true nf nc nt nr fcls cls kd ac bl (S cf) cc)
    | 1 => ps ← numbers 24 fs; c ← mk_cl ps; cls ← wr cls cc (Some c); Some (Core fs 0 0 true nf nc nt nr fcls cls kd ac bl cf (S cc))
    | 3 =>
      ps ← numbers 24 fs; c ← mk_cl ps; cls ← wr cls cc (Some c); a ← int_at fs 24; ac ← wr ac cc (Some a); b ← int_at fs 25; bl ← wr bl cc (Some b);
      Some (Core fs 0 0 true nf nc nt nr fcls cls kd ac bl cf (S cc))
    | _ => Some (Core fs 0 fl true nf nc nt nr fcls cls kd ac bl cf cc)
    end
  else Some (Core fs 0 fl true nf nc nt nr (replicate nf None) (replicate nt None) kd ac bl cf cc).
(** parser.c:336-420, one character; the state is temp2, counter and the rest *)
Definition char_read (s : list (option ascii) * nat * core) (c : ascii) : option (list (option ascii) * nat * core) :=
  let '(buf, n, k) := s in
  if decide (c <> semi /\ c <> newline) then buf ← wr buf n (Some c); Some (buf, S n, k)
  else if decide (c = semi) then buf ← wr buf n (Some NUL); k ← on_field buf k; Some (buf, 0, k)
  else k ← on_newline buf k; Some (buf, 0, k).

(** parser.c:422-480: flag, j, counter_int, prev_rl (when they are set), real_cls, counter, rls, counter_rl *)
Record groups := Groups { g_open : option (nat * Z); g_size : nat; g_cls : list (option C); g_nc : nat; g_rls : list (option (Z * list C)); g_nr : nat }.
(** parser.c:430-437, 450-457 and 468-474: the layers j .. j + counter_int - 1 become a block *)
Definition close (k : core) (j : nat) (g : groups) : option groups :=
  ls ← mapM (fun i => x ← rd (k_cls k) i; x) (seq j (g_size g)); a ← rd (k_act k) j; a ← a; rls ← wr (g_rls g) (g_nr g) (Some (a, ls));
  Some (Groups (g_open g) (g_size g) (g_cls g) (g_nc g) rls (S (g_nr g))).
(** parser.c:428-465, the body of the loop over the convolutional layers *)
Definition group (k : core) (i : nat) (g : groups) : option groups :=
  kd ← rd (k_kind k) i; kd ← kd;
  if decide (kd = 1) then
    g ← match g_open g with Some (j, _) => close k j g | None => Some g end;
    c ← rd (k_cls k) i; c ← c; cls ← wr (g_cls g) (g_nc g) (Some c); Some (Groups None 0 cls (S (g_nc g)) (g_rls g) (g_nr g))
  else
    b ← rd (k_block k) i; b ← b;
    match g_open g with
    | None => Some (Groups (Some (i, b)) (S (g_size g)) (g_cls g) (g_nc g) (g_rls g) (g_nr g))
    | Some (j, p) =>
      if decide (p <> b) then g ← close k j g; Some (Groups (Some (i, b)) 1 (g_cls g) (g_nc g) (g_rls g) (g_nr g))
      else Some (Groups (Some (j, p)) (S (g_size g)) (g_cls g) (g_nc g) (g_rls g) (g_nr g))
    end.
Definition assemble (k : core) : option groups :=
  g ← for_loop (k_nt k) 0 (group k) (Groups None 0 (replicate (k_nc k) None) 0 (replicate (k_nr k) None) 0);
  match g_open g with Some (j, _) => close k j g | None => Some g end.
(** parser.c:302-480, up to the arguments of network(): the number of layers, the blocks, the convolutional and the fully-connected layers, of
    which network() reads all *)
Definition parse_text (text : list ascii) : option (nat * list (Z * list C) * list C * list L) :=
  '(_, _, k) ← run char_read text (replicate 256 None, 0, start);
  g ← assemble k;
  rls ← mapM (fun x => x) (g_rls g); cls ← mapM (fun x => x) (g_cls g); fcls ← mapM (fun x => x) (k_fcls k);
  Some (k_nf k + k_nt k, rls, cls, fcls).
(** Some None: NULL is returned *)
Definition parse_file (file : option (list ascii)) : option (option (nat * list (Z * list C) * list C * list L)) :=
  match file with None => Some None | Some text => m ← parse_text text; Some (Some m) end.
End desc.
Arguments Core {F L C}.
Arguments Groups {C}.
