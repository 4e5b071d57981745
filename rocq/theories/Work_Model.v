(** Model of the shared list of work files of src/utils.c: read_files_from_file, set_files_free_from_file
    and remove_occupied_sets.  A character is a nat (10 is a newline, 59 a semicolon, 0 the end of a
    string); the file is the list of its characters.  A missing file is not modelled (the code then frees
    an uninitialised pointer).  Output to the terminal is left out.  [None] is an access outside a buffer. *)
From Verif Require Import Base BaseLemmas.
Open Scope nat_scope.

Definition NL : nat := 10.
Definition SEMI : nat := 59.

(** the C string in a buffer: up to the first 0 *)
Fixpoint cstr (l : list nat) : list nat :=
  match l with [] => [] | c :: l => if decide (c = 0) then [] else c :: cstr l end.

(** utils.c:1169-1189 the loop of read_files_from_file; [out] is what was written to the file, [temp] the
    buffer of package_size characters, [res] the string temp2, once it is set (the buffer is not written
    after that) *)
Fixpoint take_loop (pk : nat) (src out temp : list nat) (count : nat) (res : option (list nat)) : option (list nat * option (list nat)) :=
  match src with
  | [] => Some (out, res)
  | ch :: src =>
      match res with
      | None =>
          if decide (ch = NL) then
            if decide (count = 0) then None
            else
              l ← rd temp (count - 1);
              if decide (l = SEMI) then take_loop pk src (out ++ [NL]) (replicate pk 0) 0 None
              else
                temp' ← wr temp count 0;
                take_loop pk src (out ++ [SEMI; NL]) temp' 0 (Some (cstr temp'))
          else
            temp' ← wr temp count ch;
            take_loop pk src (out ++ [ch]) temp' (S count) None
      | Some _ => take_loop pk src (out ++ [ch]) temp count res
      end
  end.

(** utils.c:1161-1197 read_files_from_file(file, package_size): the new file and the string returned *)
Definition read_files (pk : nat) (file : list nat) : option (list nat * option (list nat)) :=
  take_loop pk file [] (replicate pk 0) 0 None.

(** utils.c:1207-1228 the loop of set_files_free_from_file *)
Fixpoint free_loop (x src out temp : list nat) (count : nat) : option (list nat) :=
  match src with
  | [] => Some out
  | ch :: src =>
      if decide (ch <> NL /\ ch <> SEMI) then
        temp' ← wr temp count ch;
        free_loop x src (out ++ [ch]) temp' (S count)
      else if decide (ch = SEMI) then
        temp' ← wr temp count 0;
        free_loop x src (out ++ (if decide (cstr temp' = x) then [] else [SEMI])) (replicate 1024 0) 0
      else free_loop x src (out ++ [NL]) (replicate 1024 0) 0
  end.

(** utils.c:1200-1232 set_files_free_from_file(file_to_free, file) *)
Definition set_files_free (x file : list nat) : option (list nat) := free_loop x file [] (replicate 1024 0) 0.

(** utils.c:1235-1248 remove_occupied_sets(file) *)
Definition remove_occupied (file : list nat) : list nat := filter (fun c => c <> SEMI) file.

(** The calls of several clients on the same file.  Every function reads the whole file (utils.c:1165,
    1204, 1239), then truncates it and writes the new one (1168-1190, 1206-1229, 1240-1246), without a lock
    between or around: two steps per call. *)
Inductive call := CTake (pk : nat) | CFree (x : list nat) | CReset.
Definition run_call (c : call) (file : list nat) : option (list nat * option (list nat)) :=
  match c with
  | CTake pk => read_files pk file
  | CFree x => f ← set_files_free x file; Some (f, None)
  | CReset => Some (remove_occupied file, None)
  end.
Inductive event := Reads (client : nat) (c : call) | Writes (client : nat).
Record sys := mkSys { s_file : list nat; s_pending : list (nat * (list nat * option (list nat))); s_results : list (nat * option (list nat)) }.
Definition sys_step (s : sys) (e : event) : option sys :=
  match e with
  | Reads k c => r ← run_call c (s_file s); Some (mkSys (s_file s) ((k, r) :: s_pending s) (s_results s))
  | Writes k =>
      match list_find (fun p => fst p = k) (s_pending s) with
      | Some (i, (_, r)) => Some (mkSys (fst r) (delete i (s_pending s)) (s_results s ++ [(k, snd r)]))
      | None => None
      end
  end.
Fixpoint sys_run (s : sys) (l : list event) : option sys :=
  match l with [] => Some s | e :: l => s' ← sys_step s e; sys_run s' l end.
