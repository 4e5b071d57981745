(** The loops of the dispatch functions give valid lists of calls that start every piece of work once *)
From Verif Require Import Base BaseLemmas Disp_Model Disp_Spec Disp_Proofs.
Open Scope nat_scope.

Section loops.
Context {L V : Type} `{EqDecision L}.
Notation code := (code L V).
Definition launch (i : nat) (l : list code) : list (call L V) := imap (fun j c => Create j (i + j) c) l ++ map Join (seq 0 (length l)).
Lemma valid_creates (l : list code) i a t rest ks : a + length l <= t ->
  valid rest (map Some (seq i (a + length l)) ++ replicate (t - (a + length l)) None) ks ->
  valid (imap (fun j c => Create (a + j) (i + (a + j)) c) l ++ rest) (map Some (seq i a) ++ replicate (t - a) None) ks.
Proof.
  revert a. induction l as [|c l IH]; intros a Ht Hv; cbn in *; [by rewrite Nat.add_0_r in Hv|].
  rewrite Nat.add_0_r. replace (t - a) with (S (t - S a)) by lia.
  assert (Hlen : length (map Some (seq i a)) = a) by (by rewrite map_length, seq_length).
  split; [by rewrite lookup_app_r, Hlen, Nat.sub_diag by (rewrite Hlen; lia)|].
  rewrite (imap_ext _ (fun j c => Create (S a + j) (i + (S a + j)) c)) by (intros; cbn; by rewrite !Nat.add_succ_r).
  replace (<[a:=Some (i + a)]> (map Some (seq i a) ++ replicate (S (t - S a)) None)) with (map Some (seq i (S a)) ++ replicate (t - S a) (@None nat)).
  { apply IH; [lia|]. by rewrite <- Nat.add_succ_comm in Hv. }
  rewrite insert_app_r_alt, Hlen, Nat.sub_diag by (rewrite Hlen; lia). cbn [replicate]. rewrite seq_S, map_app, <- app_assoc. done.
Qed.
Lemma valid_joins m i a t (rest : list (call L V)) ks : a + m <= t -> valid rest (replicate t None) ks ->
  valid (map Join (seq a m) ++ rest) (replicate a None ++ map Some (seq (i + a) m) ++ replicate (t - (a + m)) None) (seq (i + a) m ++ ks).
Proof.
  revert a. induction m as [|m IH]; intros a Ht Hv; cbn in *.
  { rewrite Nat.add_0_r, <- replicate_add. by replace (a + (t - a)) with t by lia. }
  exists (i + a), (seq (S (i + a)) m ++ ks). split; [done|].
  split; [rewrite lookup_app_r by (rewrite replicate_length; lia); by rewrite replicate_length, Nat.sub_diag|].
  rewrite insert_app_r_alt, replicate_length, Nat.sub_diag by (rewrite replicate_length; lia). cbn [list_insert].
  specialize (IH (S a) ltac:(lia) Hv). replace (i + S a) with (S (i + a)) in IH by lia. replace (S a + m) with (a + S m) in IH by lia.
  rewrite replicate_S_end, <- app_assoc in IH. exact IH.
Qed.
Lemma valid_launch i (l : list code) t rest ks : length l <= t -> valid rest (replicate t None) ks -> valid (launch i l ++ rest) (replicate t None) (seq i (length l) ++ ks).
Proof.
  intros Ht Hv. unfold launch. rewrite <- app_assoc. pose proof (valid_creates l i 0 t (map Join (seq 0 (length l)) ++ rest) (seq i (length l) ++ ks)) as H.
  cbn in H. rewrite Nat.sub_0_r in H. apply H; [done|]. pose proof (valid_joins (length l) i 0 t rest ks) as H2. cbn in H2. rewrite !Nat.add_0_r in H2. by apply H2.
Qed.
Lemma created_launch i (l : list code) rest : created (launch i l ++ rest) = imap (fun j c => (i + j, c)) l ++ created rest.
Proof.
  unfold launch. rewrite !created_app. rewrite <- app_assoc. f_equal.
  - assert (G : forall a, created (imap (fun j c => Create j (i + j) c) l) = created (imap (fun j c => Create j (i + j) c) l)) by done. clear G.
    cut (forall (g : nat -> nat * nat), created (imap (fun j c => Create (g j).1 (g j).2 c) l) = imap (fun j c => ((g j).2, c)) l).
    { intros H. apply (H (fun j => (j, i + j))). }
    induction l as [|c l IH]; intros g; [done|]. cbn. f_equal. apply (IH (fun j => g (S j))).
  - induction (seq 0 (length l)) as [|j r IH]; [done|]. cbn. done.
Qed.
Lemma seq_results (cs : list code) (h : mem L V) : omap (fun k => (fun c => (exec c h).1) <$> cs !! k) (seq 0 (length cs)) = map (fun c => (exec c h).1) cs.
Proof.
  induction cs as [|c cs IH] using rev_ind; [done|]. rewrite app_length. cbn [length]. rewrite seq_app, omap_app, map_app. cbn [seq]. f_equal.
  - rewrite <- IH. apply list_omap_ext. apply Forall2_same_length_lookup. split; [done|]. intros i x y E1 E2. rewrite E1 in E2. injection E2 as <-.
    apply elem_of_list_lookup_2 in E1. apply elem_of_seq in E1. by rewrite lookup_app_l by lia.
  - cbn. rewrite lookup_app_r, Nat.sub_diag by lia. done.
Qed.
(** one round of threads *)
Lemma launched (add : V -> V -> V) (cs : list code) (threads : nat) (h : mem L V) (zero : V) : independent cs -> length cs <= threads ->
  always_finishes add (start threads (launch 0 cs) h zero) (one_by_one cs h) (foldl add zero (map (fun c => (exec c h).1) cs)).
Proof.
  intros HI Ht. rewrite <- seq_results. rewrite <- (app_nil_r (launch 0 cs)). apply dispatched; [done| |].
  - rewrite <- (app_nil_r (seq 0 (length cs))). apply valid_launch; [done|]. cbn. split; [done|]. by apply Forall_replicate.
  - rewrite created_launch. cbn. by rewrite app_nil_r.
Qed.

Section batch.
Context (n threads : nat) (item : nat -> option code) (cs : list code) (Hlen : length cs = n) (Hitem : forall k c, cs !! k = Some c -> item k = Some c) (Ht : 1 <= threads).
Lemma creates_eq stop i j : threads - j <= stop -> i + j <= n \/ threads <= j ->
  creates n threads item stop i j = Some (imap (fun a c => Create (j + a) (i + (j + a)) c) (take (Nat.min (threads - j) (n - (i + j))) (drop (i + j) cs))).
Proof using Hlen Hitem Ht.
  revert j. induction stop as [|stop IH]; intros j Hs Hj; cbn.
  { replace (threads - j) with 0 by lia. by rewrite Nat.min_0_l, take_0. }
  destruct (decide _) as [[H1 H2]|Hn].
  - destruct (lookup_lt_is_Some_2 cs (i + j)) as [c Ec]; [lia|]. rewrite (Hitem _ _ Ec). cbn. rewrite IH by lia. cbn.
    rewrite (drop_S cs c (i + j) Ec). replace (Nat.min (threads - j) (n - (i + j))) with (S (Nat.min (threads - S j) (n - (i + S j)))) by lia.
    rewrite firstn_cons. cbn. rewrite !Nat.add_0_r. rewrite <- Nat.add_succ_r. f_equal. f_equal. apply imap_ext. intros a x _. cbn. f_equal; lia.
  - replace (Nat.min (threads - j) (n - (i + j))) with 0 by lia. by rewrite take_0.
Qed.
Lemma joins_eq stop i j : threads - j <= stop -> i + j <= n \/ threads <= j -> joins (L := L) (V := V) n threads stop i j = map Join (seq j (Nat.min (threads - j) (n - (i + j)))).
Proof using Hlen Ht.
  revert j. induction stop as [|stop IH]; intros j Hs Hj; cbn.
  { by replace (threads - j) with 0 by lia. }
  destruct (decide _) as [[H1 H2]|Hn].
  - rewrite IH by lia. by replace (Nat.min (threads - j) (n - (i + j))) with (S (Nat.min (threads - S j) (n - (i + S j)))) by lia.
  - by replace (Nat.min (threads - j) (n - (i + j))) with 0 by lia.
Qed.
Lemma rounds_ok fuel i : n - i <= fuel -> exists td, rounds n threads item fuel i = Some td /\ created td = imap (fun k c => (i + k, c)) (drop i cs) /\ valid td (replicate threads None) (seq i (n - i)).
Proof using Hlen Hitem Ht.
  revert i. induction fuel as [|fuel IH]; intros i Hf; cbn [rounds].
  - rewrite decide_False by lia. exists []. split; [done|]. rewrite drop_ge by lia. replace (n - i) with 0 by lia. split; [done|]. cbn. split; [done|]. by apply Forall_replicate.
  - destruct (decide (i < n)) as [Hi|Hi].
    + rewrite creates_eq, joins_eq by lia. destruct (IH (i + threads)) as (td & -> & Hc & Hv); [lia|]. cbn. rewrite !Nat.add_0_r, !Nat.sub_0_r. set (m := Nat.min threads (n - i)).
      assert (Hm : length (take m (drop i cs)) = m) by (rewrite take_length, drop_length; lia).
      exists (launch i (take m (drop i cs)) ++ td). split; [by unfold launch; rewrite Hm, <- app_assoc|].
      rewrite created_launch, Hc. split.
      * rewrite <- (take_drop m (drop i cs)) at 2. rewrite imap_app, Hm. f_equal. rewrite drop_drop.
        destruct (decide (threads <= n - i)) as [Hle|Hle].
        -- replace (i + m) with (i + threads) by lia. apply imap_ext. intros. cbn. f_equal. lia.
        -- by rewrite !drop_ge by lia.
      * replace (seq i (n - i)) with (seq i (length (take m (drop i cs))) ++ seq (i + threads) (n - (i + threads))).
        { apply valid_launch; [rewrite Hm; lia|done]. }
        rewrite Hm. destruct (decide (threads <= n - i)) as [Hle|Hle].
        -- replace (n - i) with (m + (n - (i + threads))) by lia. rewrite seq_app. by replace (i + m) with (i + threads) by lia.
        -- replace (n - (i + threads)) with 0 by lia. replace m with (n - i) by lia. by rewrite app_nil_r.
    + exists []. split; [done|]. rewrite drop_ge by lia. replace (n - i) with 0 by lia. split; [done|]. cbn. split; [done|]. by apply Forall_replicate.
Qed.
Lemma batch_loop_ok (add : V -> V -> V) h zero : independent cs -> exists td, batch_loop n threads item = Some td /\
  always_finishes add (start threads td h zero) (one_by_one cs h) (foldl add zero (map (fun c => (exec c h).1) cs)).
Proof using Hlen Hitem Ht.
  intros HI. destruct (rounds_ok n 0) as (td & E & Hc & Hv); [lia|]. exists td. split; [done|]. rewrite <- seq_results.
  apply dispatched; [done| |by rewrite Hc, drop_0]. rewrite Nat.sub_0_r in Hv. by rewrite Hlen.
Qed.
End batch.
End loops.
