(** C69: the shared list of work files. *)
From Verif Require Import Base BaseLemmas Work_Model Work_Spec Work_Proofs.
Open Scope nat_scope.

(** A client gets the first name that is not handed out; the list is otherwise unchanged, whatever
    follows the last complete line included.  When all are handed out it gets NULL and nothing changes. *)
Theorem C69_take_hands_out_the_first_free_name : forall pk l tail, Forall (fits pk) l -> NL ∉ tail -> length tail <= pk ->
  read_files pk (enc l ++ tail) = Some (enc (fst (take_first l)) ++ tail, snd (take_first l)).
Proof. intros pk l tail H1 H2 H3. unfold read_files. by rewrite take_enc. Qed.

(** Giving a name back frees every entry with this name and changes nothing else. *)
Theorem C69_give_back_frees_the_name : forall x l, Forall (fits 1024) l -> set_files_free x (enc l) = Some (enc (free_name x l)).
Proof. exact free_enc. Qed.
(** A line with two marks (written by hand: no call makes one) loses only the first of them, so its name stays handed out. *)
Theorem C69_second_mark_stays : forall n l1 l2, Forall (fits 1024) l1 -> Forall (fits 1024) l2 -> fits 1024 (n, true) ->
  set_files_free n (enc l1 ++ (n ++ [SEMI; SEMI; NL]) ++ enc l2) = Some (enc (free_name n l1) ++ (n ++ [SEMI; NL]) ++ enc (free_name n l2)).
Proof.
  intros n l1 l2 H1 H2 [(G0 & G1 & G2 & G3) Hn]. cbn [fst] in *. unfold set_files_free.
  assert (H : forall out, free_loop n (enc l1 ++ (n ++ [SEMI; SEMI; NL]) ++ enc l2) out (replicate 1024 0) 0 =
                          Some (out ++ enc (free_name n l1) ++ (n ++ [SEMI; NL]) ++ enc (free_name n l2))); [|apply (H [])].
  induction H1 as [|[m mb] l1 [(M0 & M1 & M2 & M3) Hf] Hl IH]; intros out.
  - change (enc []) with (@nil nat). change (enc (free_name n [])) with (@nil nat). cbn [app]. rewrite <- !app_assoc. rewrite (free_chars0 n _ n) by (try done; lia). cbn [app free_loop].
    rewrite decide_False by (intros [_ ?]; done). rewrite decide_True by done. rewrite buf_wr0 by done. cbn [mbind option_bind].
    rewrite cstr_buf by done. rewrite (decide_True (P := n = n)) by done. rewrite decide_False by (intros [_ ?]; done). rewrite decide_True by done.
    assert (Ew : wr (replicate 1024 0) 0 0 = Some (replicate 1024 0)) by done. rewrite Ew. cbn [mbind option_bind].
    rewrite (decide_False (P := cstr (replicate 1024 0) = n)) by (change (cstr (replicate 1024 0)) with (@nil nat); congruence).
    rewrite decide_False by (intros [? _]; done). rewrite decide_False by done.
    assert (He : forall l out, Forall (fits 1024) l -> free_loop n (enc l) out (replicate 1024 0) 0 = Some (out ++ enc (free_name n l))).
    { clear. induction l as [|[m mb] l IH]; intros out Hl; [cbn; by rewrite app_nil_r|]. apply list.Forall_cons in Hl as [[(M0 & M1 & M2 & M3) Hf] Hl].
      change (enc ((m, mb) :: l)) with (line (m, mb) ++ enc l). cbn [fst] in *. rewrite free_line by done. rewrite IH by done. rewrite <- app_assoc. done. }
    rewrite He by done. by rewrite <- !app_assoc.
  - change (enc ((m, mb) :: l1)) with (line (m, mb) ++ enc l1). cbn [fst] in *. rewrite <- app_assoc. rewrite free_line by done. rewrite IH.
    change (enc (free_name n ((m, mb) :: l1))) with (line (m, if decide (m = n) then false else mb) ++ enc (free_name n l1)). by rewrite <- !app_assoc.
Qed.
Theorem C69_reset_frees_everything : forall l, Forall (fun e => SEMI ∉ fst e) l -> remove_occupied (enc l) = enc (free_all l).
Proof. exact reset_enc. Qed.

(** Over every history of calls by one client at a time: no name is held twice, the file marks exactly
    the names that are held, and the next call to get a name gets one that is not held, or NULL if and only
    if all are. *)
Theorem C69_no_name_is_held_twice : forall names pk file held, NoDup names ->
  Forall (fun n => good_name n /\ length n < pk /\ length n < 1024) names -> hist names pk file held ->
  NoDup held /\ (forall n, n ∈ held -> n ∈ names) /\
  file = enc ((fun n => (n, bool_decide (n ∈ held))) <$> names) /\
  exists file' r, read_files pk file = Some (file', r) /\
    match r with Some n => n ∈ names /\ n ∉ held | None => forall n, n ∈ names -> n ∈ held end.
Proof.
  intros names pk file held Hnd Hg Hh. destruct (hist_inv names pk Hnd Hg file held Hh) as (-> & H1 & H2). split; [done|]. split; [done|]. split; [done|].
  rewrite (read_st names pk Hg held). destruct (take_first_st held names Hnd) as [[E HA]|(n & Hn & HnH & E)]; rewrite E; cbn [fst snd]; by do 2 eexists.
Qed.
(** No call of such a history is undefined. *)
Theorem C69_histories_are_defined : forall names pk file held x, NoDup names ->
  Forall (fun n => good_name n /\ length n < pk /\ length n < 1024) names -> hist names pk file held ->
  is_Some (read_files pk file) /\ is_Some (set_files_free x file).
Proof.
  intros names pk file held x Hnd Hg Hh. destruct (hist_inv names pk Hnd Hg file held Hh) as (-> & H1 & H2).
  rewrite (read_st names pk Hg held). rewrite free_enc by (apply st_fits; by eapply Hgood_1024). done.
Qed.

(** Buffers: a name before or at the first free one that is not shorter than package_size overflows the
    buffer of the client; a name of 1025 characters or more overflows the buffer of the call that gives
    back, whatever name is given back; and an empty line before the first free name is read before the
    start of the buffer. *)
Theorem C69_long_names_overflow_refuted : forall pk l1 n b l2, Forall (fun e => fits pk e /\ snd e = true) l1 -> good_name n -> pk <= length n ->
  read_files pk (enc (l1 ++ (n, b) :: l2)) = None.
Proof.
  intros pk l1 n b l2 Hl Hn Hlen. unfold read_files.
  enough (H : forall out, take_loop pk (enc (l1 ++ (n, b) :: l2)) out (replicate pk 0) 0 None = None) by apply H.
  induction Hl as [|[m mb] l1 [[Hm Hf] Hb] Hl IH]; intros out.
  - cbn [app]. change (enc ((n, b) :: l2)) with (line (n, b) ++ enc l2). destruct Hn as (H0 & H1 & H2 & H3). unfold line. cbn [fst snd].
    destruct (decide (length n = pk)) as [E|E]; [|rewrite <- app_assoc; by apply take_over0; [|lia]]. destruct b.
    + replace ((n ++ [SEMI] ++ [NL]) ++ enc l2) with ((n ++ [SEMI]) ++ NL :: enc l2) by (by rewrite <- !app_assoc). apply take_over0.
      * rewrite elem_of_app. intros [?|Hs]; [done|]. apply elem_of_list_singleton in Hs. discriminate.
      * rewrite app_length. cbn. lia.
    + cbn [app]. rewrite <- app_assoc. rewrite take_chars0 by (try done; lia). cbn [app take_loop]. rewrite decide_True by done.
      destruct (snoc_cases n H0) as (n' & c & ->). rewrite decide_False by (rewrite app_length; cbn; lia). rewrite buf_last. cbn [mbind option_bind].
      rewrite decide_False by (intros ->; apply H2, elem_of_app; right; by apply elem_of_list_singleton). by rewrite buf_wr_over.
  - cbn [app]. change (enc ((m, mb) :: l1 ++ (n, b) :: l2)) with (line (m, mb) ++ enc (l1 ++ (n, b) :: l2)). cbn in Hb. subst mb.
    rewrite take_busy_line by (try done; apply Hm). apply IH.
Qed.
Theorem C69_give_back_overflows_refuted : forall x l1 n b l2, Forall (fits 1024) l1 -> good_name n -> 1024 < length n ->
  set_files_free x (enc (l1 ++ (n, b) :: l2)) = None.
Proof.
  intros x l1 n b l2 Hl Hn Hlen. unfold set_files_free.
  enough (H : forall out, free_loop x (enc (l1 ++ (n, b) :: l2)) out (replicate 1024 0) 0 = None) by apply H.
  induction Hl as [|[m mb] l1 [(Hm0 & Hm1 & Hm2 & Hm3) Hf] Hl IH]; intros out.
  - change (enc ([] ++ (n, b) :: l2)) with (line (n, b) ++ enc l2). destruct Hn as (H0 & H1 & H2 & H3). unfold line. cbn [fst snd]. rewrite <- app_assoc. by apply free_over0.
  - cbn [app]. change (enc ((m, mb) :: l1 ++ (n, b) :: l2)) with (line (m, mb) ++ enc (l1 ++ (n, b) :: l2)). cbn [fst] in *. rewrite free_line by done. apply IH.
Qed.
Theorem C69_empty_lines_are_undefined_refuted : forall pk l rest, Forall (fun e => fits pk e /\ snd e = true) l ->
  read_files pk (enc l ++ NL :: rest) = None.
Proof.
  intros pk l rest Hl. unfold read_files. enough (H : forall out, take_loop pk (enc l ++ NL :: rest) out (replicate pk 0) 0 None = None) by apply H.
  induction Hl as [|[m mb] l [[Hm Hf] Hb] Hl IH]; intros out; [done|].
  change (enc ((m, mb) :: l)) with (line (m, mb) ++ enc l). cbn in Hb. subst mb. rewrite <- app_assoc. rewrite take_busy_line by (try done; apply Hm). apply IH.
Qed.

(** The last line is handed out only if it ends with a newline. *)
Theorem C69_unterminated_last_line_is_never_handed_out_refuted : forall pk l n, Forall (fits pk) l -> Forall (fun e => snd e = true) l -> fits pk (n, false) ->
  read_files pk (enc l ++ n) = Some (enc l ++ n, None).
Proof.
  intros pk l n Hl Hb [(H0 & H1 & _) Hn]. cbn in Hn. rewrite C69_take_hands_out_the_first_free_name by (try done; lia).
  replace (take_first l) with (l, @None (list nat)); [done|]. symmetry. clear Hl. induction Hb as [|[m mb] l Hm Hl IH]; [done|]. cbn in Hm. subst mb. cbn. by rewrite IH.
Qed.

(** Crashes.  The file is truncated and then written from its start; when the client dies meanwhile, a
    prefix of the new file is left.  From such a file a client still gets only complete names that were not
    handed out; *)
Theorem C69_after_a_crash_only_free_names_are_handed_out : forall pk l k, Forall (fits pk) l ->
  exists file' r, read_files pk (take k (enc l)) = Some (file', r) /\ (forall n, r = Some n -> (n, false) ∈ l).
Proof.
  intros pk l k Hl. destruct (enc_prefix pk l Hl k) as (l1 & tail & (l2 & ->) & E & Ht & Htl). rewrite E.
  apply Forall_app in Hl as [Hl1 _]. rewrite C69_take_hands_out_the_first_free_name by done. do 2 eexists. split; [done|].
  intros n Hn. apply elem_of_app. left. by apply take_first_free.
Qed.
(** but every name can be lost: no list survives a crash at every point. *)
Theorem C69_a_crash_can_lose_every_name_refuted : forall pk l, Forall (fits pk) l ->
  exists k, read_files pk (take k (enc l)) = Some ([], None) /\ (l <> [] -> k < length (enc l)).
Proof.
  intros pk l Hl. exists 0. split; [done|]. intros Hne. destruct l as [|[n b] l]; [done|]. change (enc ((n, b) :: l)) with (line (n, b) ++ enc l).
  unfold line. rewrite !app_length. cbn. lia.
Qed.

(** Clients at the same time.  Two clients that both read before either writes get the same name; *)
Theorem C69_two_clients_get_the_same_name_refuted : forall pk l n, Forall (fits pk) l -> snd (take_first l) = Some n ->
  exists s, sys_run (mkSys (enc l) [] []) [Reads 1 (CTake pk); Reads 2 (CTake pk); Writes 1; Writes 2] = Some s /\
    s_results s = [(1, Some n); (2, Some n)].
Proof.
  intros pk l n Hl Hn. pose proof (C69_take_hands_out_the_first_free_name pk l [] Hl (not_elem_of_nil _) (Nat.le_0_l _)) as E. rewrite !app_nil_r in E. rewrite Hn in E.
  cbn [sys_run sys_step run_call s_file]. rewrite E. cbn -[read_files]. rewrite E. cbn. eexists. split; [reflexivity|]. done.
Qed.
(** and a name that is given back while another client gets one can stay marked as handed out. *)
Theorem C69_a_name_given_back_can_stay_marked_refuted : forall pk l x, Forall (fits pk) l -> Forall (fits 1024) l -> (x, true) ∈ l ->
  exists s l', sys_run (mkSys (enc l) [] []) [Reads 1 (CTake pk); Reads 2 (CFree x); Writes 2; Writes 1] = Some s /\ s_file s = enc l' /\ (x, true) ∈ l'.
Proof.
  intros pk l x Hl Hl2 Hx. pose proof (C69_take_hands_out_the_first_free_name pk l [] Hl (not_elem_of_nil _) (Nat.le_0_l _)) as E. rewrite !app_nil_r in E.
  cbn [sys_run sys_step run_call s_file]. rewrite E. cbn -[set_files_free]. rewrite free_enc by done. cbn. do 2 eexists. split; [reflexivity|]. split; [done|].
  clear -Hx. induction l as [|[m mb] l IH]; [by apply elem_of_nil in Hx|]. apply elem_of_cons in Hx. destruct mb; cbn.
  - apply elem_of_cons. destruct Hx as [Hx|Hx]; [by left|right; by apply IH].
  - apply elem_of_cons. right. destruct Hx as [Hx|Hx]; [congruence|done].
Qed.

(** *** Instances *)
Definition nm (c : nat) : list nat := [97; c].
Lemma nm_good c : c <> 10 -> c <> 59 -> c <> 0 -> good_name (nm c).
Proof.
  intros H1 H2 H3. unfold good_name, nm, NL, SEMI. split; [done|].
  split; [|split]; intros [Hx|[Hx|Hx%elem_of_nil]%elem_of_cons]%elem_of_cons; congruence.
Qed.
Example C69_example_names : Forall (fun n => good_name n /\ length n < 8 /\ length n < 1024) [nm 98; nm 99] /\ NoDup [nm 98; nm 99].
Proof.
  split.
  - apply list.Forall_cons. split; [split; [by apply nm_good|cbn; lia]|]. apply list.Forall_cons. split; [split; [by apply nm_good|cbn; lia]|]. constructor.
  - apply list.NoDup_cons. split; [|apply NoDup_singleton]. rewrite elem_of_list_singleton. unfold nm. congruence.
Qed.
(** the file "ab\nac;\n": ab is handed out; then nothing is left; after giving ac back, ac is *)
Example C69_example_take : read_files 8 (enc [(nm 98, false); (nm 99, true)]) = Some (enc [(nm 98, true); (nm 99, true)], Some (nm 98)).
Proof. reflexivity. Qed.
Example C69_example_hist : exists file, hist [nm 98; nm 99] 8 file [nm 99].
Proof.
  exists (enc [(nm 98, false); (nm 99, true)]).
  pose proof (h_start [nm 98; nm 99] 8) as H0.
  pose proof (h_take _ _ _ _ (enc [(nm 98, true); (nm 99, false)]) (Some (nm 98)) H0 eq_refl) as H1.
  pose proof (h_take _ _ _ _ (enc [(nm 98, true); (nm 99, true)]) (Some (nm 99)) H1 eq_refl) as H2.
  refine (h_free _ _ _ _ (nm 98) _ H2 _). apply (free_enc (nm 98) [(nm 98, true); (nm 99, true)]).
  apply list.Forall_cons. split; [split; [by apply nm_good|cbn; lia]|]. apply list.Forall_cons. split; [split; [by apply nm_good|cbn; lia]|]. constructor.
Qed.
Example C69_example_long : read_files 2 (enc [(nm 98, false)]) = None.
Proof. reflexivity. Qed.

Print Assumptions C69_take_hands_out_the_first_free_name.
Print Assumptions C69_give_back_frees_the_name.
Print Assumptions C69_second_mark_stays.
Print Assumptions C69_reset_frees_everything.
Print Assumptions C69_no_name_is_held_twice.
Print Assumptions C69_histories_are_defined.
Print Assumptions C69_long_names_overflow_refuted.
Print Assumptions C69_give_back_overflows_refuted.
Print Assumptions C69_empty_lines_are_undefined_refuted.
Print Assumptions C69_unterminated_last_line_is_never_handed_out_refuted.
Print Assumptions C69_after_a_crash_only_free_names_are_handed_out.
Print Assumptions C69_a_crash_can_lose_every_name_refuted.
Print Assumptions C69_two_clients_get_the_same_name_refuted.
Print Assumptions C69_a_name_given_back_can_stay_marked_refuted.
