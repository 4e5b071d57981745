(** Interleavings of threads with disjoint footprints *)
From Coq Require Import FunctionalExtensionality.
From Verif Require Import NumLib Upd_Model Upd_Spec Net_Model Net_Spec Sum_Model Sum_Spec.
Open Scope nat_scope.

Lemma run_seq p q h : run (seq p q) h = (h ← run p h; run q h).
Proof.
  revert q h. induction p as [|a nm i f IH|a nm i v k IH|p IHp q' IHq k IHk|]; intros q h; cbn; [done|..].
  - destruct (rd (h a nm) i) as [v|]; [|done]. cbn. apply IH.
  - destruct (put h a nm i v) as [h1|]; [|done]. cbn. apply IH.
  - destruct (run p h) as [h1|]; [|done]. cbn. destruct (run q' h1) as [h2|]; [|done]. cbn. apply IHk.
  - done.
Qed.

(** p accesses only layers in A, and its threads access different ones *)
Fixpoint ok (A : list nat) (p : prog) : Prop :=
  match p with
  | Done | Fail => True
  | Read a _ _ f => a ∈ A /\ forall v, ok A (f v)
  | Write a _ _ _ k => a ∈ A /\ ok A k
  | Par p q k => (exists A1 A2, A1 ⊆ A /\ A2 ⊆ A /\ (forall a, a ∈ A1 -> a ∉ A2) /\ ok A1 p /\ ok A2 q) /\ ok A k
  end.
Lemma ok_mono A B p : A ⊆ B -> ok A p -> ok B p.
Proof.
  intros HAB. induction p as [|a nm i f IH|a nm i v k IH|p IHp q IHq k IHk|]; cbn; [done|..].
  - intros [Ha Hf]. split; [by apply HAB|]. intros v. by apply IH.
  - intros [Ha Hk]. split; [by apply HAB|by apply IH].
  - intros [(A1 & A2 & H1 & H2 & Hd & Hp & Hq) Hk]. split; [|by apply IHk]. exists A1, A2. split_and!; try done; by etransitivity.
  - done.
Qed.
Lemma ok_seq A p q : ok A p -> ok A q -> ok A (seq p q).
Proof.
  intros Hp Hq. induction p as [|a nm i f IH|a nm i v k IH|p1 IHp q1 IHq k IHk|]; cbn in *; [done|..].
  - destruct Hp as [Ha Hf]. split; [done|]. intros v. by apply IH.
  - destruct Hp as [Ha Hk]. split; [done|by apply IH].
  - destruct Hp as [Hpq Hk]. split; [done|by apply IHk].
  - done.
Qed.
Lemma ok_loop A n i0 body : (forall i, i0 <= i < i0 + n -> ok A (body i)) -> ok A (loop n i0 body).
Proof. revert i0. induction n as [|n IH]; intros i0 H; cbn; [done|]. apply ok_seq; [apply H; lia|]. apply IH. intros. apply H. lia. Qed.
Lemma ok_at {A} B (l : list A) i k : (forall x, l !! i = Some x -> ok B (k x)) -> ok B (at_ l i k).
Proof. intros H. unfold at_. destruct (l !! i); [by apply H|done]. Qed.
Lemma ok_when A b p : ok A p -> ok A (when b p).
Proof. intros H. by destruct b. Qed.

Definition agree (A : list nat) (h g : heap) : Prop := forall a nm, a ∈ A -> h a nm = g a nm.
Definition only (A : list nat) (h h' : heap) : Prop := forall a nm, a ∉ A -> h' a nm = h a nm.
Lemma put_only A h a nm i v h' : a ∈ A -> put h a nm i v = Some h' -> only A h h'.
Proof. intros Ha E b nm' Hb. unfold put in E. destruct (wr (h a nm) i v); [|done]. injection E as <-. unfold hset. rewrite decide_False; [done|]. intros [-> _]. done. Qed.
Lemma put_local A h g a nm i v h' : a ∈ A -> agree A h g -> put h a nm i v = Some h' -> exists g', put g a nm i v = Some g' /\ agree A h' g'.
Proof.
  intros Ha Hg E. unfold put in *. rewrite <- (Hg a nm Ha). destruct (wr (h a nm) i v) as [l|]; [|done]. cbn in *. injection E as <-. eexists. split; [done|]. intros b nm' Hb. unfold hset. destruct (decide _); [done|by apply Hg].
Qed.
Lemma run_only A p h h' : ok A p -> run p h = Some h' -> only A h h'.
Proof.
  revert A h h'. induction p as [|a nm i f IH|a nm i v k IH|p IHp q IHq k IHk|]; cbn; intros A h h' Ho E.
  - injection E as <-. by intros ? ? ?.
  - destruct (rd (h a nm) i) as [v|]; [|done]. eapply IH; [apply Ho|exact E].
  - destruct (put h a nm i v) as [h1|] eqn:E1; [|done]. cbn in E. destruct Ho as [Ha Ho]. intros b nm' Hb. rewrite (IH A h1 h' Ho E b nm' Hb). by eapply put_only.
  - destruct (run p h) as [h1|] eqn:E1; [|done]. cbn in E. destruct (run q h1) as [h2|] eqn:E2; [|done]. cbn in E. destruct Ho as [(A1 & A2 & H1 & H2 & Hd & Hp & Hq) Hk].
    intros b nm' Hb. rewrite (IHk A h2 h' Hk E b nm' Hb). rewrite (IHq A2 h1 h2 Hq E2) by (intros ?; apply Hb; by apply H2). apply (IHp A1 h h1 Hp E1). intros ?. apply Hb. by apply H1.
  - done.
Qed.
Lemma run_local A p h g h' : ok A p -> agree A h g -> run p h = Some h' -> exists g', run p g = Some g' /\ agree A h' g'.
Proof.
  revert A h g h'. induction p as [|a nm i f IH|a nm i v k IH|p IHp q IHq k IHk|]; cbn; intros A h g h' Ho Hg E.
  - injection E as <-. by exists g.
  - destruct Ho as [Ha Ho]. rewrite <- (Hg a nm Ha). destruct (rd (h a nm) i) as [v|]; [|done]. cbn in *. by eapply IH.
  - destruct Ho as [Ha Ho]. destruct (put h a nm i v) as [h1|] eqn:E1; [|done]. cbn in E. destruct (put_local A h g a nm i v h1 Ha Hg E1) as (g1 & E2 & Hg1). rewrite E2. cbn. by eapply IH.
  - destruct Ho as [(A1 & A2 & H1 & H2 & Hd & Hp & Hq) Hk]. destruct (run p h) as [h1|] eqn:E1; [|done]. cbn in E. destruct (run q h1) as [h2|] eqn:E2; [|done]. cbn in E.
    destruct (IHp A1 h g h1 Hp) as (g1 & F1 & G1); [intros b nm' Hb; apply Hg; by apply H1|done|]. rewrite F1. cbn.
    assert (G1' : agree A h1 g1).
    { intros b nm' Hb. destruct (decide (b ∈ A1)) as [Hin|Hn]; [by apply G1|]. rewrite (run_only A1 p h h1 Hp E1) by done. rewrite (run_only A1 p g g1 Hp F1) by done. by apply Hg. }
    destruct (IHq A2 h1 g1 h2 Hq) as (g2 & F2 & G2); [intros b nm' Hb; apply G1'; by apply H2|done|]. rewrite F2. cbn.
    eapply IHk; [done| |done]. intros b nm' Hb. destruct (decide (b ∈ A2)) as [Hin|Hn]; [by apply G2|]. rewrite (run_only A2 q h1 h2 Hq E2) by done. rewrite (run_only A2 q g1 g2 Hq F2) by done. by apply G1'.
  - done.
Qed.

(** a step stays within the footprint *)
Lemma step_ok A p h p' h' : ok A p -> step (p, h) (p', h') -> ok A p' /\ only A h h'.
Proof.
  intros Ho Hs. remember (p, h) as x eqn:Ex. remember (p', h') as y eqn:Ey. revert A p h p' h' Ex Ey Ho.
  induction Hs as [a nm i f h0 v E|a nm i v k h0 h1 E|p q k h0 p1 h1 Hs IH|p q k h0 q1 h1 Hs IH|k h0]; intros A pp hh pp' hh' [= <- <-] [= <- <-] Ho; cbn in Ho.
  - split; [apply Ho|by intros ? ? ?].
  - split; [apply Ho|]. eapply put_only; [apply Ho|done].
  - destruct Ho as [(A1 & A2 & H1 & H2 & Hd & Hp & Hq) Hk]. destruct (IH A1 p h0 p1 h1 eq_refl eq_refl Hp) as [Ho1 Hon]. split; [split; [|done]; exists A1, A2; done|].
    intros b nm Hb. apply Hon. intros ?. apply Hb. by apply H1.
  - destruct Ho as [(A1 & A2 & H1 & H2 & Hd & Hp & Hq) Hk]. destruct (IH A2 q h0 q1 h1 eq_refl eq_refl Hq) as [Ho1 Hon]. split; [split; [|done]; exists A1, A2; done|].
    intros b nm Hb. apply Hon. intros ?. apply Hb. by apply H2.
  - split; [apply Ho|by intros ? ? ?].
Qed.
Lemma step_local A p h p' h' g : ok A p -> step (p, h) (p', h') -> agree A h g -> exists g', step (p, g) (p', g') /\ agree A h' g'.
Proof.
  intros Ho Hs. remember (p, h) as x eqn:Ex. remember (p', h') as y eqn:Ey. revert A p h p' h' g Ex Ey Ho.
  induction Hs as [a nm i f h0 v E|a nm i v k h0 h1 E|p q k h0 p1 h1 Hs IH|p q k h0 q1 h1 Hs IH|k h0]; intros A pp hh pp' hh' g [= <- <-] [= <- <-] Ho Hg; cbn in Ho.
  - exists g. split; [|done]. constructor. destruct Ho as [Ha _]. by rewrite <- (Hg a nm Ha).
  - destruct (put_local A h0 g a nm i v h1 (proj1 Ho) Hg E) as (g1 & E1 & G1). exists g1. split; [by constructor|done].
  - destruct Ho as [(A1 & A2 & H1 & H2 & Hd & Hp & Hq) Hk]. destruct (IH A1 p h0 p1 h1 g eq_refl eq_refl Hp) as (g1 & S1 & G1); [intros b nm Hb; apply Hg; by apply H1|].
    exists g1. split; [by constructor|]. intros b nm Hb. destruct (decide (b ∈ A1)) as [|Hn]; [by apply G1|].
    rewrite (proj2 (step_ok _ _ _ _ _ Hp Hs)), (proj2 (step_ok _ _ _ _ _ Hp S1)) by done. by apply Hg.
  - destruct Ho as [(A1 & A2 & H1 & H2 & Hd & Hp & Hq) Hk]. destruct (IH A2 q h0 q1 h1 g eq_refl eq_refl Hq) as (g1 & S1 & G1); [intros b nm Hb; apply Hg; by apply H2|].
    exists g1. split; [by constructor|]. intros b nm Hb. destruct (decide (b ∈ A2)) as [|Hn]; [by apply G1|].
    rewrite (proj2 (step_ok _ _ _ _ _ Hq Hs)), (proj2 (step_ok _ _ _ _ _ Hq S1)) by done. by apply Hg.
  - exists g. split; [constructor|done].
Qed.
(** ... and does not change the sequential result *)
Lemma step_run A p h p' h' hf : ok A p -> step (p, h) (p', h') -> run p h = Some hf -> run p' h' = Some hf.
Proof.
  revert A h p' h' hf. induction p as [|a nm i f IH|a nm i v k IH|p IHp q IHq k IHk|]; intros A h p' h' hf Ho Hs Hr; inversion Hs; subst; cbn in *.
  - match goal with E : rd _ _ = Some _ |- _ => by rewrite E in Hr end.
  - match goal with E : put _ _ _ _ _ = Some _ |- _ => by rewrite E in Hr end.
  - destruct Ho as [(A1 & A2 & H1 & H2 & Hd & Hp & Hq) Hk]. destruct (run p h) as [hp|] eqn:Ep; [|done].
    match goal with S : step (p, h) _ |- _ => by rewrite (IHp A1 _ _ _ hp Hp S Ep) end.
  - destruct Ho as [(A1 & A2 & H1 & H2 & Hd & Hp & Hq) Hk]. destruct (run p h) as [hp|] eqn:Ep; [|done]. cbn in Hr. destruct (run q hp) as [hq|] eqn:Eq; [|done]. cbn in Hr.
    match goal with S : step (q, h) (?q', _) |- _ => rename S into S0; rename q' into q1 end.
    destruct (run_local A1 p h h' hp Hp) as (hp1 & Ep1 & Ag1); [|done|].
    { intros b nm Hb. symmetry. apply (proj2 (step_ok _ _ _ _ _ Hq S0)). by apply Hd. }
    destruct (step_local A2 q h q1 h' hp Hq S0) as (g1 & S1 & G1).
    { intros b nm Hb. symmetry. apply (run_only A1 p h hp Hp Ep). intros ?. by apply (Hd b). }
    assert (E : hp1 = g1).
    { extensionality b. extensionality nm. destruct (decide (b ∈ A1)) as [Hb|Hb].
      - rewrite <- (Ag1 b nm Hb). symmetry. apply (proj2 (step_ok _ _ _ _ _ Hq S1)). by apply Hd.
      - rewrite (run_only A1 p h' hp1 Hp Ep1) by done. destruct (decide (b ∈ A2)) as [Hb2|Hb2]; [by apply G1|].
        rewrite (proj2 (step_ok _ _ _ _ _ Hq S0)), (proj2 (step_ok _ _ _ _ _ Hq S1)) by done. symmetry. by apply (run_only A1 p h hp Hp Ep). }
    rewrite Ep1. cbn. rewrite E. by rewrite (IHq A2 hp q1 g1 hq Hq S1 Eq).
  - cbn in Hr. done.
Qed.
Lemma progress p h hf : run p h = Some hf -> p = Done \/ exists x, step (p, h) x.
Proof.
  revert h hf. induction p as [|a nm i f IH|a nm i v k IH|p IHp q IHq k IHk|]; intros h hf Hr; cbn in Hr; [by left|right..].
  - destruct (rd (h a nm) i) as [v|] eqn:E; [|done]. eexists. by constructor.
  - destruct (put h a nm i v) as [h1|] eqn:E; [|done]. eexists. by constructor.
  - destruct (run p h) as [hp|] eqn:Ep; [|done]. cbn in Hr. destruct (IHp h hp Ep) as [->|[[p1 h1] S1]]; [|eexists; by apply step_left].
    cbn in Ep. injection Ep as <-. destruct (run q h) as [hq|] eqn:Eq; [|done]. destruct (IHq h hq Eq) as [->|[[q1 h1] S1]]; [|eexists; by apply step_right]. eexists. apply step_join.
  - done.
Qed.
(** every execution is finite *)
Definition next (p' p : prog) : Prop := exists h h', step (p, h) (p', h').
Lemma next_acc p : Acc next p.
Proof.
  induction p as [|a nm i f IH|a nm i v k IH|p IHp q IHq k IHk|].
  - constructor. intros p' (h & h' & S). inversion S.
  - constructor. intros p' (h & h' & S). inversion S; subst. apply IH.
  - constructor. intros p' (h & h' & S). inversion S; subst. apply IH.
  - revert q IHq. induction IHp as [p Hp IHp]. intros q IHq. induction IHq as [q Hq IHq]. constructor. intros p' (h & h' & S). inversion S; subst; [| |done].
    + apply IHp; [by exists h, h'|by constructor].
    + apply IHq. by exists h, h'.
  - constructor. intros p' (h & h' & S). inversion S.
Qed.
Lemma finite p h : Acc (fun x y => step y x) (p, h).
Proof.
  revert h. induction (next_acc p) as [p _ IH]. intros h. constructor. intros [p' h'] S. apply IH. by exists h, h'.
Qed.

Lemma accesses_in A p x b : ok A p -> (x, b) ∈ accesses p -> x.1.1 ∈ A.
Proof.
  revert A. induction p as [|a nm i f IH|a nm i v k IH|p IHp q IHq k IHk|]; intros A Ho Hx; cbn in *.
  - by apply elem_of_nil in Hx.
  - apply elem_of_list_singleton in Hx as [= -> ->]. apply Ho.
  - apply elem_of_list_singleton in Hx as [= -> ->]. apply Ho.
  - destruct Ho as [(A1 & A2 & H1 & H2 & Hd & Hp & Hq) Hk]. apply elem_of_app in Hx as [Hx|Hx]; [by eapply H1, IHp|by eapply H2, IHq].
  - by apply elem_of_nil in Hx.
Qed.
Lemma no_race A p : ok A p -> ~ race p.
Proof.
  revert A. induction p as [|a nm i f IH|a nm i v k IH|p IHp q IHq k IHk|]; intros A Ho; cbn; try (by intros []).
  destruct Ho as [(A1 & A2 & H1 & H2 & Hd & Hp & Hq) Hk]. intros [R|[R|(x & b1 & b2 & X1 & X2 & _)]]; [by eapply IHp|by eapply IHq|].
  apply (Hd (x.1.1)); by eapply accesses_in.
Qed.
Lemma always A p h h' : ok A p -> run p h = Some h' -> always_ends p h h'.
Proof.
  intros Ho Hr. split; [apply finite|]. intros p1 h1 S.
  assert (H : ok A p1 /\ run p1 h1 = Some h').
  { remember (p, h) as x eqn:Ex. remember (p1, h1) as y eqn:Ey. revert p h p1 h1 Ex Ey Ho Hr. induction S as [x|x [p2 h2] z S0 S IH]; intros p h p1 h1 Ex Ey Ho Hr.
    - rewrite Ex in Ey. by injection Ey as <- <-.
    - subst x. eapply (IH p2 h2); [done|done| |].
      + by eapply step_ok.
      + by eapply step_run. }
  destruct H as [Ho1 Hr1]. split; [by eapply no_race|]. destruct (progress _ _ _ Hr1) as [->|X]; [left|by right]. cbn in Hr1. by injection Hr1 as ->.
Qed.
