(** Model of the ranked (prioritised) replay buffer of src/rainbow.c, and of the one of
    src/efficientzero.c:390-422 (add_buffer_state_efficientzero), 461-499 (update_buffer_state_efficientzero) and
    629-685 (add_experience_efficientzero), whose text is the same (the latter also stores [values],
    one more component of the transition).

    [T] is the type of stored transitions (state_t, state_t_1, action, reward, nonterminal flag:
    the five parallel arrays buffer_state_t, buffer_state_t_1, actions, rewards,
    nonterminal_state_t_1 are one array of [option T] here, None = the NULL pointer of an empty
    slot; this is a simplification: all five are always written together, rainbow.c:1539-1543).
    [V] is the type of priorities (C float).  Freeing the overwritten states is not modelled. *)
From Verif Require Import Base Order Heap_Model Replay_Spec.
Open Scope nat_scope.

Section replay.
  Context {V T : Type} (ltb : V -> V -> bool) (v0 v100 : V).

  (** include/llab.h struct rainbow, fields max_buffer_size, buffer_current_index, buffer_state_t...,
      error_priorization, error_indices, reverse_error_indices *)
  Record replay := mkReplay {
    cap : nat; cur : nat; slots : list (option T);
    errs : list V; einds : list nat; erevs : list nat }.

  (** src/rainbow.c init_rainbow: all arrays calloc'ed with max_buffer_size entries *)
  Definition init_replay (n : nat) : replay :=
    mkReplay n 0 (replicate n None) (replicate n v0) (replicate n 0) (replicate n 0).

  (** rainbow.c:1291-1298 add_buffer_state (the rank weights of lines 1300-1302 are in Cumul_Model) *)
  Definition add_buffer_state (r : replay) (index : nat) : option replay :=
    e ← (if decide (index = 0) then Some v100 else a ← rd (einds r) 0; rd (errs r) a);
    errs1 ← wr (errs r) index e;
    ind1 ← wr (einds r) index index;
    rev1 ← wr (erevs r) index index;
    p ← max_heapify_up ltb errs1 (index + 1) ind1 rev1 index;
    Some (mkReplay (cap r) (cur r) (slots r) errs1 p.1 p.2).

  (** rainbow.c:1363-1365: number of stored transitions *)
  Definition stored_length (r : replay) : option nat :=
    last ← rd (slots r) (cap r - 1);
    Some (match last with None => cur r | Some _ => cap r end).

  (** rainbow.c:1362-1368 update_buffer_state *)
  Definition update_buffer_state (r : replay) (index : nat) (error : V) : option replay :=
    length ← stored_length r;
    p ← remove_ith ltb (errs r) (einds r) (erevs r) length index;
    a ← (if decide (length = 0) then None else rd p.1 (length - 1));
    errs1 ← wr (errs r) a error;
    q ← max_heapify_up ltb errs1 length p.1 p.2 (length - 1);
    Some (mkReplay (cap r) (cur r) (slots r) errs1 q.1 q.2).

  (** rainbow.c:1530-1582 add_experience with sampling_flag == RANKED_SAMPLING *)
  Definition add_experience (r : replay) (t : T) : option replay :=
    old ← rd (slots r) (cur r);
    slots1 ← wr (slots r) (cur r) (Some t);
    let r1 := mkReplay (cap r) (cur r) slots1 (errs r) (einds r) (erevs r) in
    r2 ← match old with
         | None => add_buffer_state r1 (cur r)
         | Some _ =>
             pos ← rd (erevs r1) (cur r);
             a0 ← rd (einds r1) 0; top ← rd (errs r1) a0;
             update_buffer_state r1 pos top
         end;
    Some (mkReplay (cap r2) ((cur r2 + 1) mod cap r2) (slots r2) (errs r2) (einds r2) (erevs r2)).

  (** utils.c:1386-1394 index_is_inside_buffer(buffer, length, index) *)
  Definition index_inside (buffer : list nat) (length index : nat) : bool :=
    bool_decide (index ∈ take length buffer).

  (** rainbow.c:1830-1837: after a training step the new error of every first occurrence of a
      sampled heap position is stored with update_buffer_state(r, reverse_batch[i], err).
      [new_errs] are the absolute errors (lines 1833-1835). *)
  Fixpoint store_errors_from (r : replay) (reverse_batch : list nat) (new_errs : list V) (i cnt : nat) : option replay :=
    match cnt with
    | O => Some r
    | S c =>
        pos ← rd reverse_batch i;
        r' ← (if index_inside reverse_batch i pos then Some r
              else err ← rd new_errs i; update_buffer_state r pos err);
        store_errors_from r' reverse_batch new_errs (S i) c
    end.
  Definition store_errors (r : replay) (reverse_batch : list nat) (new_errs : list V) : option replay :=
    store_errors_from r reverse_batch new_errs 0 (length reverse_batch).

  (** rainbow.c:1605-1606: batch[i] = error_indices[val]; reverse_batch[i] = val (before the training step) *)
  Definition sampled_slots (r : replay) (reverse_batch : list nat) : option (list nat) :=
    mapM (rd (einds r)) reverse_batch.

  (** one user call *)
  Definition step (r : replay) (o : op T V) : option replay :=
    match o with Add t => add_experience r t | SetError pos e => update_buffer_state r pos e end.
  Fixpoint run (r : replay) (os : list (op T V)) : option replay :=
    match os with [] => Some r | o :: os => r' ← step r o; run r' os end.
End replay.
