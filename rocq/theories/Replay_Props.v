(** C08, C09: the ranked replay buffer (src/rainbow.c). *)
From Verif Require Import BaseLemmas OrderLemmas Sort_Spec Heap_Model Heap_Spec Heap_Proofs Replay_Spec Replay_Model Replay_Proofs.
Open Scope nat_scope.

(** C08.  After every history of stored transitions and stored errors (for occupied positions), no
    call failed, each slot holds the latest transition of its residue class, the priority queue is a
    max-heap over exactly the occupied slots and its two tables are mutually inverse. *)
Theorem C08_history_keeps_buffer_consistent :
  forall (V T : Type) (ltb : V -> V -> bool) (v0 v100 : V) (c : nat) (history : list (op T V)),
    strict_weak_order ltb -> 0 < c -> valid_history c 0 history ->
    exists r, run ltb v100 (init_replay v0 c) history = Some r /\
      let n := stored c (length (added history)) in
      length (slots r) = c /\
      (forall k o, slots r !! k = Some o -> latest_in_slot c (added history) k o) /\
      take n (einds r) ≡ₚ seq 0 n /\
      inverse_tables (errs r) (einds r) (erevs r) n /\
      is_max_heap ltb (errs r) (einds r) n.
Proof.
  intros V T ltb v0 v100 c history Hs Hc HV.
  destruct (run_inv ltb Hs v100 c Hc history [] _ (inv_init ltb v0 c Hc) HV) as (r & E & H).
  exists r. split; [done|]. cbn in H |- *. split; [apply H|]. split; [apply H|]. split; [by eapply hi_perm, H|].
  split; [by eapply hi_tabs, H|]. apply heap_spec. by eapply hi_heap, H.
Qed.
Print Assumptions C08_history_keeps_buffer_consistent.

(** C08 (new transition).  Storing one more transition after any history puts its slot at the top of
    the queue, with the highest priority present (100 when the buffer was empty), and changes no other
    slot's priority. *)
Theorem C08_new_transition_ranks_first :
  forall (V T : Type) (ltb : V -> V -> bool) (v0 v100 : V) (c : nat) (history : list (op T V)) (t : T) (r : replay),
    strict_weak_order ltb -> 0 < c -> valid_history c 0 history ->
    run ltb v100 (init_replay v0 c) history = Some r ->
    let m := length (added history) in
    exists r' e, add_experience ltb v100 r t = Some r' /\
      slots r' !! (m mod c) = Some (Some t) /\
      einds r' !! 0 = Some (m mod c) /\
      errs r' = <[ (m mod c)%nat := e ]> (errs r) /\
      (m = 0 -> e = v100) /\ (m <> 0 -> is_top ltb (errs r) (stored c m) e).
Proof.
  intros V T ltb v0 v100 c history t r Hs Hc HV Hr m.
  destruct (run_inv ltb Hs v100 c Hc history [] _ (inv_init ltb v0 c Hc) HV) as (r2 & E & H).
  rewrite Hr in E. simplify_eq. cbn in H.
  destruct (inv_add ltb Hs v100 c _ r2 t Hc H) as (r' & e & E' & H' & Herr & He & Hroot).
  exists r', e. split; [done|]. split.
  - assert (Hk : m mod c < c) by (apply Nat.mod_upper_bound; lia).
    destruct (lookup_lt_is_Some_2 (slots r') (m mod c)) as [o Ho]; [rewrite (i_len _ _ _ _ H'); done|].
    rewrite Ho. pose proof (i_slots _ _ _ _ H' _ _ Ho) as HL. destruct o as [u|]; cbn in HL.
    + destruct HL as (j & Hj & Hm & Hlast).
      assert (j = m) as ->.
      { pose proof (lookup_lt_Some _ _ _ Hj) as Hjl. rewrite app_length in Hjl, Hlast. cbn in Hjl, Hlast.
        destruct (decide (j = m)); [done|]. exfalso. apply (Hlast m); [fold m; fold m in Hjl; lia|done]. }
      rewrite lookup_app_r in Hj by (fold m; lia). fold m in Hj. replace (m - m) with 0 in Hj by lia. cbn in Hj. by simplify_eq.
    + exfalso. apply (HL m); [|done]. rewrite app_length. cbn. fold m. lia.
  - split; [done|]. split; [done|]. case_decide; split; intros; done || (exfalso; unfold m in *; lia).
Qed.
Print Assumptions C08_new_transition_ranks_first.

(** C08 (stored error).  Storing an error for heap position pos changes exactly the priority of the
    slot that was at that position, and no stored transition. *)
Theorem C08_stored_error_changes_one_slot :
  forall (V T : Type) (ltb : V -> V -> bool) (v0 v100 : V) (c : nat) (history : list (op T V)) (pos : nat) (e : V) (r : replay),
    strict_weak_order ltb -> 0 < c -> valid_history c 0 history ->
    run ltb v100 (init_replay v0 c) history = Some r -> pos < stored c (length (added history)) ->
    exists r' s, update_buffer_state ltb r pos e = Some r' /\ einds r !! pos = Some s /\
      errs r' = <[ s := e ]> (errs r) /\ slots r' = slots r.
Proof.
  intros V T ltb v0 v100 c history pos e r Hs Hc HV Hr Hpos.
  destruct (run_inv ltb Hs v100 c Hc history [] _ (inv_init ltb v0 c Hc) HV) as (r2 & E & H).
  rewrite Hr in E. simplify_eq. cbn in H.
  destruct (inv_update ltb Hs c _ r2 pos e Hc H Hpos) as (r' & s & E' & _ & _ & Es & He & Hsl). eauto 7.
Qed.
Print Assumptions C08_stored_error_changes_one_slot.

Example C08_case :
  let h := [Add 10; Add 20; SetError 0 7%Z; Add 30; Add 40; SetError 2 300%Z; Add 50] in
  valid_history 3 0 h /\ added h = [10;20;30;40;50] /\
  exists r, run Z.ltb 100%Z (init_replay 0%Z 3) h = Some r /\ slots r = [Some 40; Some 50; Some 30] /\ errs r = [100;300;300]%Z /\ einds r = [1;0;2].
Proof. split; [cbn; lia|]. split; [done|]. eexists. split; [vm_compute; reflexivity|]. split_and!; vm_compute; reflexivity. Qed.

(** C09, partial.  Storing the errors of a sampled batch after any history never leaves the arrays,
    keeps the buffer consistent and its transitions unchanged, and if a single position was sampled
    (possibly several times) its transition gets its error and every other one keeps its priority.
    Missing: batches with several distinct positions, refuted below. *)
Theorem C09_single_position_batch_partial :
  forall (V T : Type) (ltb : V -> V -> bool) (v0 v100 : V) (c : nat) (history : list (op T V))
         (r : replay) (reverse_batch : list nat) (new_errs : list V),
    strict_weak_order ltb -> 0 < c -> valid_history c 0 history ->
    run ltb v100 (init_replay v0 c) history = Some r ->
    let n := stored c (length (added history)) in
    (forall i pos, reverse_batch !! i = Some pos -> pos < n) -> length new_errs = length reverse_batch ->
    exists r', store_errors ltb r reverse_batch new_errs = Some r' /\
      is_max_heap ltb (errs r') (einds r') n /\ inverse_tables (errs r') (einds r') (erevs r') n /\
      slots r' = slots r /\
      (forall batch pos0, (forall i pos, reverse_batch !! i = Some pos -> pos = pos0) ->
         sampled_slots r reverse_batch = Some batch ->
         errors_recorded batch new_errs (errs r') /\
         forall s, s ∉ batch -> errs r' !! s = errs r !! s).
Proof.
  intros V T ltb v0 v100 c history r rb es Hs Hc HV Hr n Hrb Hle.
  destruct (run_inv ltb Hs v100 c Hc history [] _ (inv_init ltb v0 c Hc) HV) as (r2 & E & H).
  rewrite Hr in E. simplify_eq. cbn in H.
  destruct (store_inv ltb Hs c _ rb es Hc Hrb Hle (length rb) 0 r2 H eq_refl) as (r' & E' & H' & Hsl).
  exists r'. split; [done|]. split; [apply heap_spec; by eapply hi_heap, H'|]. split; [by eapply hi_tabs, H'|]. split; [done|].
  intros batch pos0 Hall Hb. apply mapM_Some in Hb.
  destruct rb as [|p0 rb].
  { apply Forall2_nil_inv_l in Hb. subst batch. cbn in E'. simplify_eq. split; [|done]. intros i s e Hi. rewrite lookup_nil in Hi. done. }
  assert (p0 = pos0) as -> by exact (Hall 0 p0 eq_refl).
  destruct es as [|e0 es]; [done|]. cbn [length store_errors_from] in E'. unfold rd in E'. cbn [mbind option_bind lookup list_lookup] in E'.
  destruct (inv_update ltb Hs c _ r2 pos0 e0 Hc H (Hrb 0 pos0 eq_refl)) as (r3 & s0 & E3 & H3 & Hs0 & Es0 & Herr & _).
  assert (index_inside (pos0 :: rb) 0 pos0 = false) as Hin0 by done. rewrite Hin0 in E'.
  cbn [mbind option_bind] in E'. rewrite E3 in E'. cbn [mbind option_bind] in E'.
  rewrite (store_same ltb r3 (pos0 :: rb) (e0 :: es) pos0 Hall) in E' by (cbn; lia). simplify_eq.
  assert (Hbs : forall i s, batch !! i = Some s -> s = s0).
  { intros i s Hi. destruct (Forall2_lookup_r _ _ _ _ _ Hb Hi) as (p & Hp & Hps). assert (p = pos0) as -> by by eapply Hall.
    unfold rd in Hps. congruence. }
  assert (Hb0 : batch !! 0 = Some s0).
  { apply Forall2_cons_inv_l in Hb as (y & l' & Hy & _ & ->). cbn. unfold rd in Hy. congruence. }
  split.
  - intros i s e Hi Hfirst He. destruct i as [|i].
    + cbn in He. assert (s = s0) as -> by congruence. assert (e = e0) as -> by congruence. rewrite Herr, list_lookup_insert; [done|].
      rewrite (hi_errs _ _ _ (i_heap _ _ _ _ H)). pose proof (hi_cap _ _ _ (i_heap _ _ _ _ H)). lia.
    + exfalso. apply (Hfirst 0); [lia|]. rewrite Hb0. f_equal. symmetry. by eapply Hbs.
  - intros s Hns. rewrite Herr, list_lookup_insert_ne; [done|]. intros ->. apply Hns. apply elem_of_list_lookup. eauto.
Qed.
Print Assumptions C09_single_position_batch_partial.

(** C09 is false for batches of several positions: the positions were recorded before the first
    stored error moved the entries.  Four transitions, all with error 100; the sampled heap positions
    are 3 and 1, i.e. slots 0 and 2; the errors computed are 150 for slot 0 and 50 for slot 2.
    Afterwards slot 2 still carries 100 and slot 3, which was not sampled, carries 50. *)
Theorem C09_priority_update_refuted :
  exists (history : list (op nat Z)) r r' batch,
    valid_history 4 0 history /\ run Z.ltb 100%Z (init_replay 0%Z 4) history = Some r /\
    sampled_slots r [3;1] = Some batch /\ store_errors Z.ltb r [3;1] [150;50]%Z = Some r' /\
    ~ errors_recorded batch [150;50]%Z (errs r') /\ exists s, s ∉ batch /\ errs r' !! s <> errs r !! s.
Proof.
  exists [Add 10; Add 20; Add 30; Add 40]. eexists _, _, _. split; [cbn; lia|].
  split; [vm_compute; reflexivity|]. split; [vm_compute; reflexivity|]. split; [vm_compute; reflexivity|]. cbn.
  split.
  - intros H. specialize (H 1 2 50%Z eq_refl). cbn in H. assert (Some 100%Z = Some 50%Z); [|done]. apply H; [|done].
    intros j Hj. assert (j = 0) as -> by lia. done.
  - exists 3. split; [|done]. set_solver.
Qed.
Print Assumptions C09_priority_update_refuted.
