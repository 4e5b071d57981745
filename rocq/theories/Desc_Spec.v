(** Descriptions of models, independently of how they are parsed. *)
From Verif Require Import Desc_Model Parse_Spec.
Open Scope nat_scope.

(** a part of a description: the numbers of a layer, or those of the layers of a residual block *)
Inductive part := Dense (p : list (list ascii)) | Conv (p : list (list ascii)) | Block (ps : list (list (list ascii))).
(** a layer is a line with its name and a line with its numbers *)
Definition layer_text (name : list ascii) (p : list (list ascii)) : list ascii := line [name] ++ [newline] ++ line p ++ [newline].
Definition part_text (x : part) : list ascii :=
  match x with Dense p => layer_text full_name p | Conv p => layer_text conv_name p | Block ps => mjoin (layer_text rconv_name <$> ps) end.
(** the first line has the name of each layer and "residual" for each block, in any order, each followed by a semicolon *)
Definition description (header : list (list ascii)) (parts : list part) : list ascii := line header ++ [newline] ++ mjoin (part_text <$> parts).
Definition occurrences (name : list ascii) (header : list (list ascii)) : nat := length (filter (fun x => x = name) header).

(** what a part stands for *)
Inductive piece (L C : Type) := PDense (l : L) | PConv (c : C) | PBlock (act id : Z) (cs : list C).
Arguments PDense {L C}. Arguments PConv {L C}. Arguments PBlock {L C}.
Section means.
Context {F L C : Type} (atof : list ascii -> F) (mk_fcl : list F -> option L) (mk_cl : list F -> option C) (toint : F -> option Z).
(** at least n and at most 256 numbers *)
Definition params (n : nat) (p : list (list ascii)) : Prop := Forall field p /\ n <= length p <= 256.
Definition int_of (p : list (list ascii)) (i : nat) (z : Z) : Prop := exists f, p !! i = Some f /\ toint (atof f) = Some z.
Inductive means : part -> piece L C -> Prop :=
| means_dense p l : params 11 p -> mk_fcl (atof <$> take 11 p) = Some l -> means (Dense p) (PDense l)
| means_conv p c : params 24 p -> mk_cl (atof <$> take 24 p) = Some c -> means (Conv p) (PConv c)
| means_block p ps act id c cs : int_of p 24 act -> Forall2 (fun q d => params 26 q /\ mk_cl (atof <$> take 24 q) = Some d /\ int_of q 25 id /\ exists a, int_of q 24 a) (p :: ps) (c :: cs) ->
    means (Block (p :: ps)) (PBlock act id (c :: cs)).
End means.
Section pieces.
Context {L C : Type}.
Definition denses (x : list (piece L C)) : list L := omap (fun p => match p with PDense l => Some l | _ => None end) x.
Definition convs (x : list (piece L C)) : list C := omap (fun p => match p with PConv c => Some c | _ => None end) x.
Definition blocks (x : list (piece L C)) : list (Z * list C) := omap (fun p => match p with PBlock a _ cs => Some (a, cs) | _ => None end) x.
(** the number of convolutional layers inside of blocks *)
Definition in_blocks (x : list (piece L C)) : nat := sum_list (length ∘ snd <$> blocks x).
(** two blocks with no convolutional layer between them have different numbers *)
Fixpoint apart (prev : option Z) (x : list (piece L C)) : Prop :=
  match x with
  | [] => True
  | PDense _ :: x => apart prev x
  | PConv _ :: x => apart None x
  | PBlock _ id _ :: x => prev <> Some id /\ apart (Some id) x
  end.
End pieces.
