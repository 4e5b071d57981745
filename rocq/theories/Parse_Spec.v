(** The texts of tables, independently of how they are read. *)
From Verif Require Import Parse_Model.
Open Scope nat_scope.

(** a field fits the buffer and has no separator and no NUL in it *)
Definition field (f : list ascii) : Prop := length f <= 255 /\ semi ∉ f /\ newline ∉ f /\ NUL ∉ f.
(** each field of a row is followed by a semicolon, each row of a table by a newline *)
Definition line (row : list (list ascii)) : list ascii := mjoin ((fun f => f ++ [semi]) <$> row).
Definition table (rows : list (list (list ascii))) : list ascii := mjoin ((fun r => line r ++ [newline]) <$> rows).
(** the same for rows of single characters *)
Definition char_table (rows : list (list ascii)) : list ascii := mjoin ((fun r => r ++ [newline]) <$> rows).
(** old with its first cells replaced by those of vals *)
Definition filled {F} (vals old : list F) : list F := vals ++ drop (length vals) old.
(** the arrays of an instance after a row of numbers was read: the first n are inputs, the others outputs *)
Definition split_row {F} (n : nat) (row : list F) (io : list F * list F) : list F * list F := (filled (take n row) io.1, filled (drop n row) io.2).
(** the row fits the arrays *)
Definition fits {F X} (n : nat) (row : list X) (io : list F * list F) : Prop := length (take n row) <= length io.1 /\ length (drop n row) <= length io.2.

(** what may be left unterminated at the end of a file *)
Definition tail_of (seps tail : list ascii) : Prop := length tail <= 256 /\ Forall (fun c => c ∉ seps) tail.
(** a file with one row: newlines may be anywhere in its fields *)
Definition cell (f : list ascii) : Prop := length f <= 255 /\ semi ∉ f /\ NUL ∉ f.
Definition row_text (text : list ascii) (row : list (list ascii)) : Prop := Forall cell row /\ exists tail, tail_of [semi] tail /\ text = line row ++ tail.
(** a file with a row per line; the newline of the last row may be missing *)
Definition table_text (text : list ascii) (rows : list (list (list ascii))) : Prop :=
  Forall (Forall field) rows /\ exists tail, tail_of [semi; newline] tail /\
  (text = table rows ++ tail \/ exists rows0 last, rows = rows0 ++ [last] /\ text = table rows0 ++ line last ++ tail).
Definition char_table_text (text : list ascii) (rows : list (list ascii)) : Prop :=
  Forall (fun r => newline ∉ r) rows /\ (text = char_table rows \/ exists rows0 last, rows = rows0 ++ [last] /\ text = char_table rows0 ++ last).
(** one character as a number *)
Definition of_char {F} (atof : list ascii -> F) (c : ascii) : F := atof (c_string [c]).
(** the arrays after rows of numbers were read *)
Definition read_rows {F} (n : nat) (rows : list (list F)) (ios : list (list F * list F)) : list (list F * list F) := zip_with (split_row n) rows ios.
(** a file of examples, each its characters and the digit of its class *)
Definition digit_char (d : nat) : ascii := ascii_of_nat (48 + d).
Definition labelled (examples : list (list ascii * nat)) : list ascii := mjoin ((fun e => e.1 ++ [digit_char e.2]) <$> examples).
Definition one_hot {F} (zero one : F) (out d : nat) : list F := replicate d zero ++ one :: replicate (out - S d) zero.
