(** Model of the readers of data files: parser.c:28-292.

    A file is its characters, or None when it cannot be opened.  atof is an arbitrary function from C strings to numbers.  Writes outside of
    the arrays and of the 256 characters of temp2 are [None].  Left out: files of 2^31 characters or more (the counters are ints). *)
From Coq Require Export Ascii.
From Verif Require Export Base.
From stdpp Require Export strings.
Open Scope nat_scope.

Notation NUL := (Ascii.zero).
Definition semi : ascii := ";"%char.
Definition newline : ascii := "010"%char.
(** a C string ends at its first NUL *)
Fixpoint c_string (l : list ascii) : list ascii := match l with [] => [] | c :: l => if decide (c = NUL) then [] else c :: c_string l end.

(** for(z = 0; z < size; z++) over the characters of the file *)
Fixpoint run {S} (step : S -> ascii -> option S) (file : list ascii) (s : S) : option S :=
  match file with [] => Some s | c :: file => s ← step s c; run step file s end.

Section readers.
Context {F : Type} (atof : list ascii -> F).
(** temp2[counter] = c; counter++; tok is temp2[0..counter-1] *)
Definition put (tok : list ascii) (c : ascii) : option (list ascii) := if decide (length tok < 256) then Some (tok ++ [c]) else None.
(** temp2[counter] = '\0'; atof(temp2) *)
Definition number (tok : list ascii) : option F := if decide (length tok < 256) then Some (atof (c_string tok)) else None.
(** input[j] = x, or output[j - n] = x *)
Definition store (n : nat) (io : list F * list F) (j : nat) (x : F) : option (list F * list F) :=
  if decide (j < n) then i ← wr io.1 j x; Some (i, io.2) else o ← wr io.2 (j - n) x; Some (io.1, o).

(** parser.c:77-113 single_instance_single_csv_file_parser; the state is temp2, counter2 and the arrays *)
Definition csv_step (n : nat) (s : list ascii * nat * (list F * list F)) (c : ascii) : option (list ascii * nat * (list F * list F)) :=
  let '(tok, j, io) := s in
  if decide (c <> semi) then tok ← put tok c; Some (tok, j, io)
  else x ← number tok; io ← store n io j x; Some ([], S j, io).
(** the returned int and the arrays *)
Definition single_csv (file : option (list ascii)) (n : nat) (io : list F * list F) : option (nat * (list F * list F)) :=
  match file with
  | None => Some (1, io)
  | Some file => s ← run (csv_step n) file ([], 0, io); Some (0, s.2)
  end.
(** parser.c:127-136 single_instance_multiple_csv_file_parser, 240-249 single_instance_multiple_file_parser *)
Fixpoint each_file (single : option (list ascii) -> nat -> list F * list F -> option (nat * (list F * list F))) (n : nat)
    (files : list (option (list ascii))) (ios : list (list F * list F)) : option (nat * list (list F * list F)) :=
  match files, ios with
  | [], _ => Some (0, ios)
  | _ :: _, [] => None
  | f :: files, io :: ios =>
    '(ret, io) ← single f n io;
    if decide (ret <> 0) then Some (ret, io :: ios) else '(ret, ios) ← each_file single n files ios; Some (ret, io :: ios)
  end.
(** parser.c:147-188 multiple_instance_single_csv_file_parser; the state is temp2, counter2, counter3 and the arrays of each instance *)
Definition csv_rows_step (n : nat) (s : list ascii * nat * nat * list (list F * list F)) (c : ascii) : option (list ascii * nat * nat * list (list F * list F)) :=
  let '(tok, j, i, ios) := s in
  if decide (c <> semi /\ c <> newline) then tok ← put tok c; Some (tok, j, i, ios)
  else if decide (c <> newline) then x ← number tok; io ← rd ios i; io ← store n io j x; ios ← wr ios i io; Some ([], S j, i, ios)
  else Some ([], 0, S i, ios).
Definition rows_csv (file : option (list ascii)) (n : nat) (ios : list (list F * list F)) : option (nat * list (list F * list F)) :=
  match file with
  | None => Some (1, ios)
  | Some file => s ← run (csv_rows_step n) file ([], 0, 0, ios); Some (0, s.2)
  end.
(** parser.c:203-227 single_instance_single_file_parser *)
Definition char_step (n : nat) (s : nat * (list F * list F)) (c : ascii) : option (nat * (list F * list F)) :=
  io ← store n s.2 s.1 (atof (c_string [c])); Some (S s.1, io).
Definition single_chars (file : option (list ascii)) (n : nat) (io : list F * list F) : option (nat * (list F * list F)) :=
  match file with
  | None => Some (1, io)
  | Some file => s ← run (char_step n) file (0, io); Some (0, s.2)
  end.
(** parser.c:260-292 multiple_instance_single_file_parser *)
Definition char_rows_step (n : nat) (s : nat * nat * list (list F * list F)) (c : ascii) : option (nat * nat * list (list F * list F)) :=
  let '(j, i, ios) := s in
  if decide (c <> newline) then io ← rd ios i; io ← store n io j (atof (c_string [c])); ios ← wr ios i io; Some (S j, i, ios)
  else Some (0, S i, ios).
Definition rows_chars (file : option (list ascii)) (n : nat) (ios : list (list F * list F)) : option (nat * list (list F * list F)) :=
  match file with
  | None => Some (1, ios)
  | Some file => s ← run (char_rows_step n) file (0, 0, ios); Some (0, s.2)
  end.
(** parser.c:28-44 get_inputs_from_multiple_instances_single_char_binary_file_with_single_softmax_output; the error of opening the file is
    not looked at and ksource[0] is then not set *)
Definition label_inputs (file : option (list ascii)) (dim instances : nat) : option (list (list F)) :=
  file ← file;
  mapM (fun i => mapM (fun j => c ← rd file (i * (dim + 1) + j); Some (atof (c_string [c]))) (seq 0 dim)) (seq 0 instances).
(** atoi of a string of one character *)
Definition digit (c : ascii) : nat := let n := nat_of_ascii c in if decide (48 <= n <= 57) then n - 48 else 0.
(** parser.c:46-61 get_outputs_from_multiple_instances_single_char_binary_file_with_single_softmax_output *)
Definition label_outputs (zero one : F) (file : option (list ascii)) (dim out instances : nat) : option (list (list F)) :=
  file ← file;
  mapM (fun i => c ← rd file (i * (dim + 1) + dim); wr (replicate out zero) (digit c) one) (seq 0 instances).
End readers.
