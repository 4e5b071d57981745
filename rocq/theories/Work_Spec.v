(** Specification of the shared list of work files. *)
From Verif Require Import Base Work_Model.
Open Scope nat_scope.

(** An entry of the list: a file name, and whether it is handed out. *)
Definition entry : Type := list nat * bool.
(** The file: one line per entry, with a semicolon at the end of the line when it is handed out. *)
Definition line (e : entry) : list nat := fst e ++ (if snd e then [SEMI] else []) ++ [NL].
Definition enc (l : list entry) : list nat := concat (line <$> l).
Definition good_name (n : list nat) : Prop := n <> [] /\ NL ∉ n /\ SEMI ∉ n /\ 0 ∉ n.
(** [c] names fit in a buffer of [size] characters *)
Definition fits (size : nat) (e : entry) : Prop := good_name (fst e) /\ length (fst e) < size.

(** Taking the first free entry. *)
Fixpoint take_first (l : list entry) : list entry * option (list nat) :=
  match l with
  | [] => ([], None)
  | (n, true) :: l => ((n, true) :: fst (take_first l), snd (take_first l))
  | (n, false) :: l => ((n, true) :: l, Some n)
  end.
Definition free_name (x : list nat) (l : list entry) : list entry := (fun e => (fst e, if decide (fst e = x) then false else snd e)) <$> l.
Definition free_all (l : list entry) : list entry := (fun e => (fst e, false)) <$> l.

(** The histories of a list of names that is used by one client at a time: [hist names pk file held]
    when the calls so far led to [file], and the names [held] were handed out and not given back. *)
Inductive hist (names : list (list nat)) (pk : nat) : list nat -> list (list nat) -> Prop :=
| h_start : hist names pk (enc ((fun n => (n, false)) <$> names)) []
| h_take file held file' r : hist names pk file held -> read_files pk file = Some (file', r) ->
    hist names pk file' (match r with Some n => n :: held | None => held end)
| h_free file held x file' : hist names pk file held -> set_files_free x file = Some file' ->
    hist names pk file' (filter (fun n => n <> x) held)
| h_reset file held : hist names pk file held -> hist names pk (remove_occupied file) [].
