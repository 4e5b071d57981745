(** C37: mini-batches are dispatched to threads so that every instance is processed exactly once *)
From Coq Require Import Reals Lra.
From Verif Require Import Base BaseLemmas RealSum Disp_Model Disp_Spec Disp_Proofs Disp_Loops Disp_Chunks.
Open Scope nat_scope.

Lemma foldl_unused {A} (zero : A) (l : list A) : foldl unused zero l = zero.
Proof. induction l as [|x l IH] using rev_ind; [done|]. by rewrite foldl_app. Qed.

(** * The *_multicore functions: for every batch size, thread count and schedule, as if every instance had been processed once, in order *)
Theorem C37_ff {L V M I} `{EqDecision L} (job : M -> I -> code L V) (ms : list M) (inputs : list I) (n threads : nat) (h : mem L V) (z : V) :
  1 <= threads -> length ms = n -> length inputs = n -> independent (zip_with job ms inputs) ->
  exists td, ff_multicore job ms inputs n threads = Some td /\ always_finishes unused (start threads td h z) (one_by_one (zip_with job ms inputs) h) z.
Proof.
  intros Ht H1 H2 HI. destruct (batch_loop_ok n threads (fun k => x ← rd ms k; y ← rd inputs k; Some (job x y)) (zip_with job ms inputs)) with (add := @unused V) (h := h) (zero := z) as (td & E & Hf).
  - rewrite zip_with_length. lia.
  - intros k c E. apply lookup_zip_with_Some in E as (x & y & -> & E1 & E2). unfold rd. by rewrite E1, E2.
  - done.
  - done.
  - exists td. split; [done|]. by rewrite foldl_unused in Hf.
Qed.
Theorem C37_bp {L V M I E P} `{EqDecision L} (job : M -> I -> E -> option P -> code L V) (ms : list M) (inputs : list I) (errors : list E) (returning : option (list P)) (n threads : nat) (h : mem L V) (z : V) :
  1 <= threads -> length ms = n -> length inputs = n -> length errors = n -> length (places returning n) = n ->
  let works := zip_with (fun '(m, x) '(e, p) => job m x e p) (zip ms inputs) (zip errors (places returning n)) in independent works ->
  exists td, bp_multicore job ms inputs errors returning n threads = Some td /\ always_finishes unused (start threads td h z) (one_by_one works h) z.
Proof.
  intros Ht H1 H2 H3 H4 works HI. destruct (batch_loop_ok n threads (fun k => x ← rd ms k; y ← rd inputs k; e ← rd errors k;
    match returning with None => Some (job x y e None) | Some ps => p ← rd ps k; Some (job x y e (Some p)) end) works) with (add := @unused V) (h := h) (zero := z) as (td & Et & Hf).
  - unfold works. rewrite !zip_with_length. lia.
  - intros k c Ek. apply lookup_zip_with_Some in Ek as ([x y] & [e p] & -> & E1 & E2). apply lookup_zip_with_Some in E1 as (? & ? & [= <- <-] & E1 & E1'). apply lookup_zip_with_Some in E2 as (? & ? & [= <- <-] & E2 & E2').
    unfold rd. rewrite E1, E1', E2. cbn. destruct returning as [ps|]; cbn in E2'.
    + rewrite list_lookup_fmap in E2'. destruct (ps !! k); [|done]. by injection E2' as <-.
    + apply lookup_replicate in E2' as [-> _]. done.
  - done.
  - done.
  - exists td. split; [done|]. by rewrite foldl_unused in Hf.
Qed.
Theorem C37_rmodel_ff {L V M S I} `{EqDecision L} (job : M -> S -> S -> I -> code L V) (ms : list M) (hidden cell : list S) (inputs : list I) (n threads : nat) (h : mem L V) (z : V) :
  1 <= threads -> length ms = n -> length hidden = n -> length cell = n -> length inputs = n ->
  let works := zip_with (fun '(m, a) '(b, x) => job m a b x) (zip ms hidden) (zip cell inputs) in independent works ->
  exists td, ff_rmodel_multicore job ms hidden cell inputs n threads = Some td /\ always_finishes unused (start threads td h z) (one_by_one works h) z.
Proof.
  intros Ht H1 H2 H3 H4 works HI. destruct (batch_loop_ok n threads (fun k => x ← rd ms k; a ← rd hidden k; b ← rd cell k; y ← rd inputs k; Some (job x a b y)) works) with (add := @unused V) (h := h) (zero := z) as (td & Et & Hf).
  - unfold works. rewrite !zip_with_length. lia.
  - intros k c Ek. apply lookup_zip_with_Some in Ek as ([x y] & [e p] & -> & E1 & E2). apply lookup_zip_with_Some in E1 as (? & ? & [= <- <-] & E1 & E1'). apply lookup_zip_with_Some in E2 as (? & ? & [= <- <-] & E2 & E2').
    unfold rd. by rewrite E1, E1', E2, E2'.
  - done.
  - done.
  - exists td. split; [done|]. by rewrite foldl_unused in Hf.
Qed.
Theorem C37_rmodel_bp {L V M S I E P Q} `{EqDecision L} (job : M -> S -> S -> I -> E -> P -> option Q -> code L V) (ms : list M) (hidden cell : list S) (inputs : list I) (errors : list E) (returning : list P)
  (returning_input : option (list Q)) (n threads : nat) (h : mem L V) (z : V) :
  1 <= threads -> length ms = n -> length hidden = n -> length cell = n -> length inputs = n -> length errors = n -> length returning = n -> length (places returning_input n) = n ->
  let works := zip_with (fun '((m, a), (b, x)) '((e, p), q) => job m a b x e p q) (zip (zip ms hidden) (zip cell inputs)) (zip (zip errors returning) (places returning_input n)) in independent works ->
  exists td, bp_rmodel_multicore job ms hidden cell inputs errors returning returning_input n threads = Some td /\ always_finishes unused (start threads td h z) (one_by_one works h) z.
Proof.
  intros Ht H1 H2 H3 H4 H5 H6 H7 works HI. destruct (batch_loop_ok n threads (fun k => x ← rd ms k; a ← rd hidden k; b ← rd cell k; y ← rd inputs k; e ← rd errors k; p ← rd returning k;
    match returning_input with None => Some (job x a b y e p None) | Some qs => q ← rd qs k; Some (job x a b y e p (Some q)) end) works) with (add := @unused V) (h := h) (zero := z) as (td & Et & Hf).
  - unfold works. rewrite !zip_with_length. lia.
  - intros k c Ek. apply lookup_zip_with_Some in Ek as ([[m a] [b x]] & [[e p] q] & -> & E1 & E2). apply lookup_zip_with_Some in E1 as (? & ? & [= <- <-] & E1 & E1'). apply lookup_zip_with_Some in E1 as (? & ? & [= <- <-] & E1 & E3).
    apply lookup_zip_with_Some in E1' as (? & ? & [= <- <-] & E4 & E5). apply lookup_zip_with_Some in E2 as (? & ? & [= <- <-] & E2 & E6). apply lookup_zip_with_Some in E2 as (? & ? & [= <- <-] & E2 & E7).
    unfold rd. rewrite E1, E3, E4, E5, E2, E7. cbn. destruct returning_input as [qs|]; cbn in E6.
    + rewrite list_lookup_fmap in E6. destruct (qs !! k); [|done]. by injection E6 as <-.
    + apply lookup_replicate in E6 as [-> _]. done.
  - done.
  - done.
  - exists td. split; [done|]. by rewrite foldl_unused in Hf.
Qed.
(** with no threads at all the loop never ends (i += 0) *)
Theorem C37_no_threads {L V M I} (job : M -> I -> code L V) (ms : list M) (inputs : list I) (n : nat) : ff_multicore job ms inputs n 0 = None <-> 0 < n.
Proof.
  unfold ff_multicore, batch_loop. split.
  - destruct n; [done|lia].
  - intros Hn. assert (H : forall fuel, rounds n 0 (fun k => x ← rd ms k; y ← rd inputs k; Some (job x y)) fuel 0 = None).
    { induction fuel as [|fuel IH]; cbn [rounds]; rewrite decide_True by done; [done|]. cbn [creates Nat.add]. rewrite IH. done. }
    apply H.
Qed.

(** * Genomes *)
Theorem C37_genomes {L V G I} `{EqDecision L} (job : G -> I -> nat -> code L V) (gs : list G) (inputs : list I) (n threads : nat) (h : mem L V) (z : V) :
  1 <= threads -> 1 <= n -> length gs = n -> length inputs = n -> let works := zip3 job gs inputs (seq 0 n) in independent works ->
  exists t td, genomes z job gs inputs n threads = Some (Some (t, td)) /\ t <= threads /\ always_finishes unused (start t td h z) (one_by_one works h) z.
Proof.
  intros Ht Hn H1 H2 works HI. unfold genomes. rewrite decide_False by lia. set (t := if decide (n < threads) then n else threads).
  assert (Ht0 : 0 < t <= n /\ t <= threads) by (unfold t; destruct (decide _); lia).
  assert (Hv : t * (n / t) <= n) by (apply Nat.mul_div_le; lia).
  set (v := n / t) in *. set (size := fun i => if decide (i = t - 1) then n - i * v else v).
  assert (Hsize : forall i, i < t -> i * v + size i <= n).
  { intros i Hi. unfold size. destruct (decide (i = t - 1)); [nia|]. nia. }
  rewrite (mapM_seq _ (fun i => Create i i (sequence z (take (size i) (drop (i * v) works))))).
  - cbn. exists t. eexists. split; [done|]. split; [lia|]. rewrite (launch_seq (fun i => sequence z (take (size i) (drop (i * v) works)))).
    rewrite <- (map_map (fun i => take (size i) (drop (i * v) works)) (sequence z)).
    assert (Hlw : length works = n) by (unfold works, zip3; rewrite !zip_with_length, seq_length; lia).
    assert (Hc : concat (map (fun i => take (size i) (drop (i * v) works)) (seq 0 t)) = works).
    { unfold size. pose proof (concat_blocks_last works v t) as Hcb. rewrite Hlw in Hcb. apply Hcb; lia. }
    replace (one_by_one works h) with (one_by_one (map (sequence z) (map (fun i => take (size i) (drop (i * v) works)) (seq 0 t))) h) by (by rewrite one_by_one_concat, Hc).
    pose proof (launched unused (map (sequence z) (map (fun i => take (size i) (drop (i * v) works)) (seq 0 t))) t h z) as Hf. rewrite foldl_unused in Hf.
    apply Hf; [|by rewrite !map_length, seq_length]. apply independent_chunks. by rewrite Hc.
  - intros i Hi. apply elem_of_seq in Hi. cbn. fold (size i). rewrite genome_thread_eq; [|lia|rewrite H1; apply Hsize; lia]. cbn. by rewrite H1.
Qed.
Lemma selected_eq {A} (indices : list Z) (l : list A) n i : i + n = length l -> length indices = length l -> selected indices l n i = Some (picked (drop i indices) (drop i l)).
Proof.
  intros Hn Hl. revert i Hn. induction n as [|n IH]; intros i Hn; cbn; [rewrite (drop_ge l) by lia; by destruct (drop i indices)|].
  destruct (lookup_lt_is_Some_2 l i) as [x Ex]; [lia|]. destruct (lookup_lt_is_Some_2 indices i) as [b Eb]; [lia|]. unfold rd. rewrite Eb, Ex. cbn. rewrite IH by lia. cbn.
  rewrite (drop_S _ _ _ Ex), (drop_S _ _ _ Eb). cbn. by destruct (decide (b ≠ 0%Z)).
Qed.
Lemma picked_length {A B} (indices : list Z) (l : list A) (l2 : list B) : length l = length l2 -> length (picked indices l) = length (picked indices l2).
Proof. revert l l2. induction indices as [|b indices IH]; intros [|x l] [|y l2] Hl; try done. cbn. destruct (decide (b ≠ 0%Z)); cbn; [f_equal|]; apply IH; by injection Hl. Qed.
Lemma picked_short {A} (indices : list Z) (l : list A) : length (picked indices l) <= length l.
Proof. revert l. induction indices as [|b indices IH]; intros [|x l]; cbn; try lia. pose proof (IH l). unfold picked in *. destruct (decide (b ≠ 0%Z)); cbn; lia. Qed.
Theorem C37_genomes_with_indices {L V G I} `{EqDecision L} (job : G -> I -> nat -> code L V) (gs : list G) (inputs : list I) (indices : list Z) (n threads : nat) (h : mem L V) (z : V) :
  1 <= threads -> length gs = n -> length inputs = n -> length indices = n ->
  let works := zip3 job (picked indices gs) (picked indices inputs) (seq 0 (length (picked indices gs))) in independent works ->
  (picked indices gs = [] /\ genomes_with_indices z job gs inputs indices n threads = Some None) \/
  exists t td, genomes_with_indices z job gs inputs indices n threads = Some (Some (t, td)) /\ t <= threads /\ always_finishes unused (start t td h z) (one_by_one works h) z.
Proof.
  intros Ht H1 H2 H3 works HI. unfold genomes_with_indices. destruct (decide _) as [Hz|Hz].
  { left. split; [|done]. destruct gs; [by destruct indices|]. cbn in H1. lia. }
  rewrite (selected_eq indices gs) by lia. rewrite (selected_eq indices inputs) by lia. rewrite !drop_0. cbn. destruct (decide _) as [H0|H0].
  { left. split; [by apply nil_length_inv|done]. }
  right. set (t' := if decide (n < threads) then n else threads).
  assert (Ht' : 1 <= t' <= threads) by (unfold t'; destruct (decide _); lia).
  destruct (C37_genomes job (picked indices gs) (picked indices inputs) (length (picked indices gs)) t' h z) as (t & td & E & Hle & Hf); [lia|lia|done|by apply picked_length; lia|done|].
  exists t, td. split; [done|]. split; [lia|done].
Qed.

(** * The loss of a batch *)
Lemma uses_frame {L V} `{EqDecision L} (own oth : L -> Prop) (c : code L V) h l : uses own oth c -> ~ own l -> (exec c h).2 l = h l.
Proof.
  intros Hu Hl. revert h. induction c as [v|l' f IH|l' v c IH]; intros h; cbn in *; [done|apply IH; apply Hu|]. rewrite IH by apply Hu. unfold upd. rewrite decide_False; [done|]. intros ->. apply Hl, Hu.
Qed.
Lemma foldl_Rplus e (l : list R) : foldl Rplus e l = (e + suml l)%R.
Proof. revert e. induction l as [|x l IH]; intros e; cbn [foldl]; [rewrite suml_nil; lra|]. rewrite IH, suml_cons. lra. Qed.
Lemma suml_concat (ls : list (list R)) : suml (concat ls) = suml (map suml ls).
Proof. induction ls as [|l ls IH]; cbn; [done|]. rewrite suml_app, IH. done. Qed.
Lemma zip_blocks {A B C} (f : A -> B -> C) v i (a : list A) (b : list B) : zip_with f (take v (drop i a)) (take v (drop i b)) = take v (drop i (zip_with f a b)).
Proof. by rewrite zip_with_drop, zip_with_take. Qed.
Section loss.
Context {L M I O : Type} `{EqDecision L} (job : M -> I -> O -> code L R) (ms : list M) (W : nat -> L -> bool) (clean : nat -> mem L R -> Prop) (loss : I -> O -> R) (h0 : mem L R).
Context (Hev : evaluates job ms W clean loss h0) (inputs : list I) (outputs : list O) (n : nat) (Hi : length inputs = n) (Ho : length outputs = n).
Let losses := zip_with loss inputs outputs.
Lemma loss_thread_ok j m size first e : ms !! j = Some m -> first + size <= n ->
  exists c, loss_thread Rplus job m inputs outputs first size e = Some c /\ uses (fun l => W j l = true) (fun l => exists i, i < length ms /\ i <> j /\ W i l = true) c /\
    forall h, clean j h -> (forall l, (forall i, i < length ms -> W i l = false) -> h l = h0 l) -> (exec c h).1 = (e + suml (take size (drop first losses)))%R.
Proof using Hev Hi Ho.
  intros Em. revert first e. induction size as [|size IH]; intros first e Hf; cbn [loss_thread].
  { exists (Ret e). split; [done|]. split; [done|]. intros h _ _. rewrite take_0, suml_nil. cbn. lra. }
  destruct (lookup_lt_is_Some_2 inputs first) as [x Ex]; [lia|]. destruct (lookup_lt_is_Some_2 outputs first) as [y Ey]; [lia|]. unfold rd. rewrite Ex, Ey. cbn.
  destruct (IH (S first) e) as (c0 & E0 & _); [lia|]. rewrite E0. cbn. eexists. split; [done|].
  pose proof (ev_uses _ _ _ _ _ _ Hev j m x y Em) as Hu. split.
  - apply uses_andthen; [done|]. intros v. destruct (IH (S first) (e + v)%R) as (c & E & Hc & _); [lia|]. by rewrite E.
  - intros h Hcl Hsh. rewrite exec_andthen. destruct (ev_loss _ _ _ _ _ _ Hev j m x y h Em Hcl Hsh) as [El Hcl']. rewrite El.
    destruct (IH (S first) (e + loss x y)%R) as (c & E & _ & Hr); [lia|]. rewrite E. cbn. rewrite Hr; [|done|].
    + assert (Ez : losses !! first = Some (loss x y)) by (unfold losses; by rewrite lookup_zip_with, Ex, Ey). rewrite (drop_S _ _ _ Ez), firstn_cons, suml_cons. lra.
    + intros l Hl. rewrite (uses_frame _ _ _ _ l Hu); [by apply Hsh|]. apply lookup_lt_Some in Em. rewrite (Hl j Em). done.
Qed.
Lemma loss_ok threads : 1 <= threads -> 1 <= n -> Nat.min n threads <= length ms -> let t := Nat.min n threads in
  exists td h', loss_multicore Rplus 0%R job ms inputs outputs n threads = Some (t, td) /\
    always_finishes Rplus (start t td h0 0%R) h' (suml (take (t * (n / t)) losses)).
Proof using Hev Hi Ho.
  intros Ht Hn Hm t. unfold loss_multicore. replace (if decide (n < threads) then n else threads) with t by (unfold t; destruct (decide _); lia). rewrite decide_False by lia.
  assert (Hv : t * (n / t) <= n) by (apply Nat.mul_div_le; lia). set (v := n / t) in *.
  set (cd := fun j => default (Ret 0%R) (m ← ms !! j; loss_thread Rplus job m inputs outputs (j * v) v 0%R)).
  assert (Hcd : forall j, j < t -> exists m, ms !! j = Some m /\ loss_thread Rplus job m inputs outputs (j * v) v 0%R = Some (cd j) /\
     uses (fun l => W j l = true) (fun l => exists i, i < length ms /\ i <> j /\ W i l = true) (cd j) /\ (exec (cd j) h0).1 = suml (take v (drop (j * v) losses))).
  { intros j Hj. destruct (lookup_lt_is_Some_2 ms j) as [m Em]; [lia|]. exists m. split; [done|]. unfold cd. rewrite Em. cbn.
    destruct (loss_thread_ok j m v (j * v) 0%R Em) as (c & E & Hu & Hr); [nia|]. rewrite E. cbn. split; [done|]. split; [done|]. rewrite Hr; [lra| |done]. apply (ev_clean _ _ _ _ _ _ Hev). lia. }
  rewrite (mapM_seq _ (fun j => Create j j (cd j))).
  - cbn. eexists _, _. split; [done|]. rewrite (launch_seq cd). replace (suml (take (t * v) losses)) with (foldl Rplus 0%R (map (fun c => (exec c h0).1) (map cd (seq 0 t)))).
    + apply launched; [|by rewrite map_length, seq_length]. exists W. unfold independent_in. rewrite map_length, seq_length. split; [intros i j l Hi1 Hj1; apply (ev_own _ _ _ _ _ _ Hev); lia|].
      intros k c E. rewrite list_lookup_fmap in E. destruct (decide (k < t)) as [Hk|Hk]; [rewrite lookup_seq_lt in E by done|by rewrite lookup_seq_ge in E by lia]. cbn in E. injection E as <-.
      destruct (Hcd k Hk) as (m & _ & _ & Hu & _). revert Hu. apply uses_weaken; [done|]. intros l (j & Hj & Hne & HW). exists j. split; [lia|done].
    + rewrite foldl_Rplus, Rplus_0_l, map_map. assert (Hl : length losses = n) by (unfold losses; rewrite zip_with_length; lia).
      rewrite <- (concat_blocks losses v t) by lia. rewrite suml_concat, map_map. f_equal. apply map_ext_in. intros j Hj. apply in_seq in Hj. destruct (Hcd j) as (m & _ & _ & _ & E); [lia|done].
  - intros j Hj. apply elem_of_seq in Hj. destruct (Hcd j) as (m & Em & E & _); [lia|]. unfold rd. rewrite Em. cbn. rewrite decide_False by nia. by rewrite E.
Qed.
End loss.
(** when the thread count divides the batch size, or exceeds it, the returned loss is that of the batch *)
Theorem C37_loss_partial {L M I O} `{EqDecision L} (job : M -> I -> O -> code L R) (ms : list M) W clean loss h0 (inputs : list I) (outputs : list O) (n threads : nat) :
  evaluates job ms W clean loss h0 -> length inputs = n -> length outputs = n -> 1 <= threads -> 1 <= n -> Nat.min n threads <= length ms -> n mod (Nat.min n threads) = 0 ->
  exists td h', loss_multicore Rplus 0%R job ms inputs outputs n threads = Some (Nat.min n threads, td) /\
    always_finishes Rplus (start (Nat.min n threads) td h0 0%R) h' (suml (zip_with loss inputs outputs)).
Proof.
  intros Hev Hi Ho Ht Hn Hm Hd. destruct (loss_ok job ms W clean loss h0 Hev inputs outputs n Hi Ho threads Ht Hn Hm) as (td & h' & E & Hf). exists td, h'. split; [done|].
  rewrite take_ge in Hf; [done|]. rewrite zip_with_length. pose proof (Nat.div_mod n (Nat.min n threads) ltac:(lia)). lia.
Qed.
(** otherwise the last (n mod threads) instances are not evaluated: the returned loss is the loss of the others, in every execution *)
Theorem C37_loss_refuted {L M I O} `{EqDecision L} (job : M -> I -> O -> code L R) (ms : list M) W clean loss h0 (inputs : list I) (outputs : list O) (n threads : nat) :
  evaluates job ms W clean loss h0 -> length inputs = n -> length outputs = n -> 1 <= threads <= n -> threads <= length ms -> n mod threads <> 0 ->
  let kept := n - n mod threads in
  exists td h', loss_multicore Rplus 0%R job ms inputs outputs n threads = Some (threads, td) /\
    always_finishes Rplus (start threads td h0 0%R) h' (suml (take kept (zip_with loss inputs outputs))) /\
    ((forall x y, (0 < loss x y)%R) -> (suml (take kept (zip_with loss inputs outputs)) < suml (zip_with loss inputs outputs))%R).
Proof.
  intros Hev Hi Ho Ht Hm Hd kept. destruct (loss_ok job ms W clean loss h0 Hev inputs outputs n Hi Ho threads) as (td & h' & E & Hf); [lia|lia|lia|]. replace (Nat.min n threads) with threads in * by lia.
  exists td, h'. split; [done|]. pose proof (Nat.div_mod n threads ltac:(lia)) as Hdm. replace (threads * (n / threads)) with kept in Hf by lia. split; [done|].
  intros Hpos. set (l := zip_with loss inputs outputs). rewrite <- (take_drop kept l) at 2. rewrite suml_app.
  assert (Hl : length l = n) by (unfold l; rewrite zip_with_length; lia).
  assert (Hall : Forall (fun x => (0 < x)%R) l). { apply Forall_lookup. intros i x Ex. apply lookup_zip_with_Some in Ex as (a & b & -> & _). apply Hpos. }
  destruct (drop kept l) as [|x r] eqn:Edr; [exfalso; apply (f_equal length) in Edr; rewrite drop_length in Edr; cbn in Edr; lia|].
  assert (H2 : Forall (fun x => (0 < x)%R) (x :: r)) by (rewrite <- Edr; by apply Forall_drop).
  apply list.Forall_cons in H2 as [Hx Hr]. assert (0 <= suml r)%R.
  { clear -Hr. induction Hr as [|y r Hy Hr IH]; [rewrite suml_nil; lra|rewrite suml_cons; lra]. }
  rewrite suml_cons. lra.
Qed.
(** an empty batch divides by zero *)
Theorem C37_loss_empty_refuted {L M I O} `{EqDecision L} (job : M -> I -> O -> code L R) (ms : list M) (inputs : list I) (outputs : list O) threads :
  loss_multicore Rplus 0%R job ms inputs outputs 0 threads = None.
Proof. unfold loss_multicore. destruct (decide (0 < threads)); rewrite decide_True by lia; done. Qed.

(** * Dueling networks trained on q functions *)
(** a batch larger than the thread count: only the first instances are used, again and again *)
Theorem C37_dqn_refuted batch threads : 1 <= threads < batch ->
  exists rs, dqn_rounds batch batch threads 0 = Some rs /\ (forall k, threads <= k < batch -> k ∉ map fst (concat rs)) /\
    exists r1 r2 more, rs = r1 :: r2 :: more /\ 0 ∈ map fst r1 /\ 0 ∈ map fst r2.
Proof.
  intros Ht.
  assert (H : forall fuel i, batch - i <= fuel -> exists rs, dqn_rounds fuel batch threads i = Some rs /\ (forall k, k ∈ map fst (concat rs) -> k < threads) /\ (i < batch -> exists r1 more, rs = r1 :: more /\ 0 ∈ map fst r1)).
  { induction fuel as [|fuel IH]; intros i Hf; cbn [dqn_rounds].
    - rewrite decide_False by lia. exists []. split; [done|]. split; [intros k Hk; by apply elem_of_nil in Hk|lia].
    - destruct (decide (i < batch)) as [Hi|Hi]; [|exists []; split; [done|]; split; [intros k Hk; by apply elem_of_nil in Hk|lia]].
      set (m := if decide (batch - i < threads) then batch - i else threads). assert (Hm : 1 <= m <= threads) by (unfold m; destruct (decide _); lia).
      destruct (IH (i + m)) as (rs & -> & Hk & _); [lia|]. cbn. eexists. split; [done|]. cbn. rewrite map_app, map_map. split.
      + intros k. rewrite elem_of_app. intros [Hin|Hin]; [|by apply Hk]. apply elem_of_list_fmap in Hin as (j & -> & Hj). apply elem_of_seq in Hj. cbn. lia.
      + intros _. do 2 eexists. split; [done|]. rewrite map_map. apply elem_of_list_fmap. exists 0. split; [done|]. apply elem_of_seq. lia. }
  destruct batch as [|b]; [lia|]. cbn [dqn_rounds]. rewrite decide_True by lia. rewrite decide_False by lia. destruct (H b threads) as (rs & E & Hk & Hr); [lia|]. rewrite Nat.add_0_l, E. cbn. eexists. split; [done|]. split.
  - intros k Hkk. cbn [concat]. rewrite map_app, map_map. cbn [fst]. rewrite map_id. intros Hin. apply elem_of_app in Hin as [Hin|Hin]; [apply elem_of_seq in Hin; lia|]. apply Hk in Hin. lia.
  - destruct Hr as (r1 & more & -> & H0); [lia|]. do 3 eexists. split; [done|]. split; [|done]. rewrite map_map. cbn [fst]. rewrite map_id. apply elem_of_seq. lia.
Qed.
(** the results of the threads are read from variables that no longer exist *)
Theorem C37_dqn_results_refuted threads : 1 <= threads -> check (results_in_block threads) [] = None.
Proof.
  intros Ht. unfold results_in_block. assert (H : forall l alive rest, check (concat (map (fun j => [Enter j; Leave j]) l) ++ rest) alive = check rest (foldl (fun a j => filter (fun x => x <> j) (j :: a)) alive l)).
  { induction l as [|j l IH]; intros alive rest; cbn; [done|]. apply IH. }
  rewrite H. assert (Hn : foldl (fun a j => filter (fun x => x <> j) (j :: a)) [] (seq 0 threads) = []).
  { clear. induction threads as [|t IH]; [done|]. rewrite seq_S, foldl_app, IH. cbn [foldl Nat.add]. rewrite filter_cons_False by tauto. done. }
  rewrite Hn. destruct threads as [|t]; [lia|]. cbn. done.
Qed.

(** * The hypotheses can be met *)
(** instance k owns the cells (k, _) and reads the shared cell (100, 0): adds the shared value to its input *)
Definition work_example (m : nat) (x : Z) : code (nat * nat) Z := Get (100, 0) (fun v => Set_ (m, 0) (x + v)%Z (Get (m, 0) (fun w => Set_ (m, 1) (w * w)%Z (Ret w)))).
Lemma work_independent n (xs : list Z) : n <= 100 -> independent (zip_with work_example (seq 0 n) xs).
Proof.
  intros Hn. exists (fun k l => bool_decide (l.1 = k)). split.
  - intros i j l _ _ Hij H1 H2. apply bool_decide_eq_true in H1, H2. congruence.
  - intros k c E. apply lookup_zip_with_Some in E as (m & x & -> & Em & Ex). apply lookup_seq in Em as [-> Hk].
    rewrite zip_with_length, seq_length. cbn. split; [|intros v; split; [by apply bool_decide_eq_true|split; [|intros w; split; [by apply bool_decide_eq_true|done]]]].
    + intros (j & Hj & _ & H). apply bool_decide_eq_true in H. cbn in H. lia.
    + intros (j & Hj & Hne & H). apply bool_decide_eq_true in H. cbn in H. lia.
Qed.
Example C37_ff_example : exists td, ff_multicore work_example (seq 0 5) [1; 2; 3; 4; 5]%Z 5 2 = Some td /\ independent (zip_with work_example (seq 0 5) [1; 2; 3; 4; 5]%Z) /\
  one_by_one (zip_with work_example (seq 0 5) [1; 2; 3; 4; 5]%Z) (fun _ => 10%Z) (4, 1) = 225%Z /\
  (forall j, (j, 5) ∉ map (fun x => match x with Create j k _ => (j, k) | Join j => (j, 5) end) (take 2 td)) /\ length td = 10.
Proof.
  eexists. split; [vm_compute; reflexivity|]. split; [apply work_independent; lia|]. split; [vm_compute; reflexivity|]. split; [|done].
  intros j. cbn. rewrite !elem_of_cons, elem_of_nil. intros [H|[H|[]]]; injection H; lia.
Qed.
Example C37_bp_example : let job := (fun (m : nat) (x e : Z) (p : option nat) => Set_ (m, 0) (x * e)%Z (match p with Some p => Set_ (m, S p) e (Ret e) | None => Ret e end)) in
  independent (zip_with (fun '(m, x) '(e, p) => job m x e p) (zip [0; 1; 2] [1; 2; 3]%Z) (zip [4; 5; 6]%Z (places (Some [7; 8; 9]) 3))) /\
  independent (zip_with (fun '(m, x) '(e, p) => job m x e p) (zip [0; 1; 2] [1; 2; 3]%Z) (zip [4; 5; 6]%Z (places None 3))) /\
  length (places (Some [7; 8; 9]) 3) = 3 /\ length (places (@None (list nat)) 3) = 3.
Proof.
  cbn zeta. split; [|split; [|done]]; exists (fun k l => bool_decide (l.1 = k)); (split; [intros i j l _ _ Hij H1 H2; apply bool_decide_eq_true in H1, H2; congruence|]);
    intros [|[|[|k]]] c E; cbn in E; try done; injection E as <-; cbn; auto.
Qed.
Example C37_rmodel_example : let job := (fun (m : nat) (a b x : Z) => Set_ (m, 0) (a + b + x)%Z (Ret x)) in
  independent (zip_with (fun '(m, a) '(b, x) => job m a b x) (zip [0; 1] [1; 2]%Z) (zip [3; 4]%Z [5; 6]%Z)) /\
  let job2 := (fun (m : nat) (a b x e : Z) (p : nat) (q : option nat) => Set_ (m, p) (a + b + x + e)%Z (Ret x)) in
  independent (zip_with (fun '((m, a), (b, x)) '((e, p), q) => job2 m a b x e p q) (zip (zip [0; 1] [1; 2]%Z) (zip [3; 4]%Z [5; 6]%Z)) (zip (zip [1; 2]%Z [0; 0]) (places (@None (list nat)) 2))).
Proof.
  cbn zeta. split; exists (fun k l => bool_decide (l.1 = k)); (split; [intros i j l _ _ Hij H1 H2; apply bool_decide_eq_true in H1, H2; congruence|]);
    intros [|[|[|k]]] c E; cbn in E; try done; injection E as <-; cbn; auto.
Qed.
Example C37_genomes_example : let job := (fun (g : nat) (x : Z) (k : nat) => Set_ (0, k) (x + Z.of_nat g)%Z (Ret x)) in
  independent (zip3 job [5; 6; 7; 8; 9] [1; 2; 3; 4; 5]%Z (seq 0 5)) /\
  picked [1; 0; 3]%Z [5; 6; 7] = [5; 7] /\ independent (zip3 job (picked [1; 0; 3]%Z [5; 6; 7]) (picked [1; 0; 3]%Z [1; 2; 3]%Z) (seq 0 2)) /\
  exists td, genomes 0%Z job [5; 6; 7; 8; 9] [1; 2; 3; 4; 5]%Z 5 2 = Some (Some (2, td)) /\ length td = 4.
Proof.
  cbn zeta. split; [|split; [done|split; [|eexists; split; vm_compute; reflexivity]]]; exists (fun k l => bool_decide (l = (0, k))); (split; [intros i j l _ _ Hij H1 H2; apply bool_decide_eq_true in H1, H2; congruence|]);
    intros [|[|[|[|[|k]]]]] c E; cbn in E; try done; injection E as <-; cbn; auto.
Qed.
(** copy j adds (x - y)^2 to its cell (j, 0), reads it, and resets it to 0 *)
Definition loss_example (m : nat) (x y : R) : code (nat * nat) R := Get (m, 0) (fun v => Set_ (m, 0) (v + (x - y) * (x - y))%R (Get (m, 0) (fun w => Set_ (m, 0) 0%R (Ret w)))).
Example C37_loss_example : evaluates loss_example [0; 1; 2] (fun k l => bool_decide (l.1 = k)) (fun k h => h (k, 0) = 0%R) (fun x y => ((x - y) * (x - y))%R) (fun _ => 0%R) /\
  7 mod Nat.min 7 3 <> 0 /\ 6 mod Nat.min 6 3 = 0 /\ 2 mod Nat.min 2 3 = 0.
Proof.
  split; [|done]. split.
  - intros i j l _ _ Hij H1 H2. apply bool_decide_eq_true in H1, H2. congruence.
  - intros j m x y E. assert (m = j) as -> by (destruct j as [|[|[|j]]]; cbn in E; [congruence..|done]).
    assert (Hno : ~ exists i, i < length [0; 1; 2] /\ i <> j /\ bool_decide ((j, 0).1 = i) = true) by (intros (i & _ & Hne & H); apply bool_decide_eq_true in H; by apply Hne).
    assert (Hown : bool_decide ((j, 0).1 = j) = true) by (by apply bool_decide_eq_true). unfold loss_example. cbn [uses]. auto.
  - intros j h h' Hh Hc. rewrite <- Hh; [done|]. by apply bool_decide_eq_true.
  - intros j m x y h E Hc _. assert (m = j) as -> by (destruct j as [|[|[|j]]]; cbn in E; [congruence..|done]). cbn. unfold upd. rewrite !decide_True by done. rewrite Hc. split; [ring|done].
  - done.
Qed.
Print Assumptions C37_ff.
Print Assumptions C37_bp.
Print Assumptions C37_rmodel_ff.
Print Assumptions C37_rmodel_bp.
Print Assumptions C37_no_threads.
Print Assumptions C37_genomes.
Print Assumptions C37_genomes_with_indices.
Print Assumptions C37_loss_partial.
Print Assumptions C37_loss_refuted.
Print Assumptions C37_loss_empty_refuted.
Print Assumptions C37_dqn_refuted.
Print Assumptions C37_dqn_results_refuted.
