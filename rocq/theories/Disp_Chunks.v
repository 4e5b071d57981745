(** Threads that handle several instances each *)
From Coq Require Import Reals Lra.
From Verif Require Import Base BaseLemmas RealSum Disp_Model Disp_Spec Disp_Proofs Disp_Loops.
Open Scope nat_scope.

Section chunks.
Context {L V : Type} `{EqDecision L}.
Notation code := (code L V).
Lemma exec_andthen (c : code) k h : exec (andthen c k) h = exec (k (exec c h).1) (exec c h).2.
Proof. revert h. induction c as [v|l f IH|l v c IH]; intros h; cbn; [done|apply IH|apply IH]. Qed.
Lemma uses_andthen own oth (c : code) k : uses own oth c -> (forall v, uses own oth (k v)) -> uses own oth (andthen c k).
Proof. intros Hc Hk. induction c as [v|l f IH|l v c IH]; cbn in *; [apply Hk|split; [apply Hc|intros v; apply IH; apply Hc]|split; [apply Hc|apply IH; apply Hc]]. Qed.
Lemma uses_weaken (own own' oth oth' : L -> Prop) (c : code) : (forall l, own l -> own' l) -> (forall l, oth' l -> oth l) -> uses own oth c -> uses own' oth' c.
Proof. intros Ho Ht. induction c as [v|l f IH|l v c IH]; cbn; [done|intros [H1 H2]; split; [by intros H3; apply H1, Ht|by intros v; apply IH]|intros [H1 H2]; split; [by apply Ho|by apply IH]]. Qed.
(** several pieces of work as the code of one thread *)
Fixpoint sequence (zero : V) (l : list code) : code := match l with [] => Ret zero | c :: l => andthen c (fun _ => sequence zero l) end.
Lemma exec_sequence zero (l : list code) h : (exec (sequence zero l) h).2 = one_by_one l h.
Proof. revert h. induction l as [|c l IH]; intros h; cbn; [done|]. rewrite exec_andthen. apply IH. Qed.
Lemma uses_sequence zero own oth (l : list code) : Forall (uses own oth) l -> uses own oth (sequence zero l).
Proof. induction 1 as [|c l Hc Hl IH]; cbn; [done|]. by apply uses_andthen. Qed.
Lemma one_by_one_concat zero (lss : list (list code)) h : one_by_one (map (sequence zero) lss) h = one_by_one (concat lss) h.
Proof. revert h. induction lss as [|l lss IH]; intros h; cbn; [done|]. by rewrite one_by_one_app, exec_sequence, IH. Qed.

Lemma independent_chunks zero (lss : list (list code)) : independent (concat lss) -> independent (map (sequence zero) lss).
Proof.
  intros (W & Hd & Hu).
  set (off := fun i => length (concat (take i lss))).
  set (W' := fun i l => existsb (fun k => W k l) (seq (off i) (length (default [] (lss !! i))))).
  assert (Hoff : forall i ls, lss !! i = Some ls -> off (S i) = off i + length ls).
  { intros i ls E. unfold off. rewrite (take_S_r _ _ _ E), concat_app, app_length. cbn. by rewrite app_nil_r. }
  assert (Hmono : forall i j, i <= j -> off i <= off j).
  { intros i j Hij. unfold off. rewrite <- (take_drop i (take j lss)), concat_app, app_length, take_take. replace (Nat.min i j) with i by lia. lia. }
  assert (Htop : forall i, off i <= length (concat lss)).
  { intros i. unfold off. rewrite <- (take_drop i lss) at 2. rewrite concat_app, app_length. lia. }
  assert (Hin : forall i ls a c, lss !! i = Some ls -> ls !! a = Some c -> concat lss !! (off i + a) = Some c).
  { intros i ls a c E Ea. rewrite <- (take_drop i lss) at 1. rewrite concat_app, lookup_app_r by (unfold off; lia). replace (off i + a - length (concat (take i lss))) with a by (unfold off; lia).
    rewrite (drop_S _ _ _ E). cbn. rewrite lookup_app_l; [done|by eapply lookup_lt_Some]. }
  assert (HW' : forall i l, W' i l = true -> exists ls k, lss !! i = Some ls /\ off i <= k < off i + length ls /\ W k l = true).
  { intros i l E. unfold W' in E. apply existsb_exists in E as (k & Hk & E). apply in_seq in Hk. destruct (lss !! i) as [ls|] eqn:El; cbn in Hk; [|lia]. by exists ls, k. }
  assert (Hdisj : forall i j l, i < j -> W' i l = true -> W' j l = true -> False).
  { intros i j l Hij E1 E2. apply HW' in E1 as (l1 & k1 & A1 & B1 & C1). apply HW' in E2 as (l2 & k2 & A2 & B2 & C2).
    pose proof (Hmono (S i) j ltac:(lia)). pose proof (Htop (S j)). rewrite (Hoff _ _ A1) in *. rewrite (Hoff _ _ A2) in *. apply (Hd k1 k2 l); [lia|lia|lia|done|done]. }
  exists W'. split.
  - intros i j l _ _ Hij E1 E2. destruct (decide (i < j)); [by eapply (Hdisj i j)|eapply (Hdisj j i); [lia|done|done]].
  - intros i c E. rewrite list_lookup_fmap in E. destruct (lss !! i) as [ls|] eqn:El; [|done]. injection E as <-. apply uses_sequence. apply Forall_lookup. intros a c Ea.
    pose proof (Hin i ls a c El Ea) as Ec. apply Hu in Ec as Huc. revert Huc. apply uses_weaken.
    + intros l Hl. unfold W'. apply existsb_exists. exists (off i + a). split; [|done]. rewrite El. cbn. apply in_seq. apply lookup_lt_Some in Ea. lia.
    + intros l (j & Hj & Hne & HW). apply HW' in HW as (l2 & k2 & A2 & B2 & C2). exists k2. split; [pose proof (Htop (S j)) as HT; rewrite (Hoff _ _ A2) in HT; lia|]. split; [|done].
      intros ->. apply lookup_lt_Some in Ea. destruct (decide (i < j)).
      * pose proof (Hmono (S i) j ltac:(lia)). rewrite (Hoff _ _ El) in *. lia.
      * pose proof (Hmono (S j) i ltac:(lia)). rewrite (Hoff _ _ A2) in *. lia.
Qed.

(** consecutive blocks of a list *)
Lemma concat_blocks {A} (l : list A) (v t : nat) : t * v <= length l -> concat (map (fun i => take v (drop (i * v) l)) (seq 0 t)) = take (t * v) l.
Proof.
  induction t as [|t IH]; intros Ht; [done|]. rewrite seq_S, map_app, concat_app, IH by lia. cbn. rewrite app_nil_r. rewrite <- (take_drop (t * v) (take (v + t * v) l)).
  rewrite take_take, skipn_firstn_comm. f_equal; [f_equal; lia|f_equal; lia].
Qed.
Lemma concat_blocks_last {A} (l : list A) (v t : nat) : 0 < t -> t * v <= length l ->
  concat (map (fun i => take (if decide (i = t - 1) then length l - i * v else v) (drop (i * v) l)) (seq 0 t)) = l.
Proof.
  intros H0 Ht. destruct t as [|t]; [lia|]. rewrite seq_S, map_app, concat_app. cbn. rewrite app_nil_r.
  replace (map _ (seq 0 t)) with (map (fun i => take v (drop (i * v) l)) (seq 0 t)).
  - rewrite concat_blocks by lia. rewrite decide_True by lia. rewrite (take_ge (drop (t * v) l)) by (rewrite drop_length; lia). apply take_drop.
  - apply map_ext_in. intros i Hi. apply in_seq in Hi. by rewrite decide_False by lia.
Qed.
Lemma mapM_seq {A B} (f : A -> option B) (g : A -> B) (l : list A) : (forall x, x ∈ l -> f x = Some (g x)) -> mapM f l = Some (map g l).
Proof. intros Hf. induction l as [|x l IH]; cbn; [done|]. rewrite Hf by (by left). cbn. rewrite IH; [done|]. intros y Hy. apply Hf. by right. Qed.
Lemma launch_seq (cs : nat -> code) t : map (fun j => Create j j (cs j)) (seq 0 t) ++ map Join (seq 0 t) = launch 0 (map cs (seq 0 t)).
Proof.
  unfold launch. rewrite map_length, seq_length. f_equal. apply list_eq. intros i. rewrite list_lookup_fmap, list_lookup_imap, list_lookup_fmap.
  destruct (decide (i < t)) as [Hi|Hi]; [by rewrite lookup_seq_lt by done|by rewrite lookup_seq_ge by lia].
Qed.
End chunks.

Section genomes.
Context {L V : Type} `{EqDecision L} {G I : Type} (zero : V) (job : G -> I -> nat -> code L V).
Lemma genome_thread_eq (gs : list G) (ins : list I) first number : length gs = length ins -> first + number <= length gs ->
  genome_thread zero job gs ins first number = Some (sequence zero (take number (drop first (zip3 job gs ins (seq 0 (length gs)))))).
Proof.
  intros Hl. revert first. induction number as [|number IH]; intros first Hf; cbn [genome_thread]; [by rewrite take_0|].
  destruct (lookup_lt_is_Some_2 gs first) as [g Eg]; [lia|]. destruct (lookup_lt_is_Some_2 ins first) as [x Ex]; [lia|]. unfold rd. rewrite Eg, Ex. cbn. rewrite IH by lia. cbn.
  assert (E : zip3 job gs ins (seq 0 (length gs)) !! first = Some (job g x first)).
  { unfold zip3. rewrite !lookup_zip_with, Eg, Ex. cbn. rewrite lookup_seq_lt by lia. done. }
  rewrite (drop_S _ _ _ E), firstn_cons. done.
Qed.
End genomes.
