(** Threads that work on different instances: every schedule gives the sequential result *)
From Verif Require Import Base BaseLemmas Disp_Model Disp_Spec.
Open Scope nat_scope.

Section valid.
Context {L V : Type}.
(** the calls of the main thread fit the thread array; ks: the instances in the order of the joins *)
Fixpoint valid (td : list (call L V)) (occ : list (option nat)) (ks : list nat) : Prop :=
  match td with
  | [] => ks = [] /\ Forall (fun x => x = None) occ
  | Create j k _ :: r => occ !! j = Some None /\ valid r (<[j := Some k]> occ) ks
  | Join j :: r => exists k ks', ks = k :: ks' /\ occ !! j = Some (Some k) /\ valid r (<[j := None]> occ) ks'
  end.
Definition created (td : list (call L V)) : list (nat * code L V) := omap (fun x => match x with Create _ k c => Some (k, c) | Join _ => None end) td.
Definition labels (td : list (call L V)) : list nat := map fst (created td).
Definition occ (p : list (option (nat * code L V))) : list (option nat) := (fun x : option (nat * code L V) => fst <$> x) <$> p.
Lemma labels_app a b : labels (a ++ b) = labels a ++ labels b.
Proof. unfold labels, created. by rewrite omap_app, map_app. Qed.
Lemma created_app (a b : list (call L V)) : created (a ++ b) = created a ++ created b.
Proof. unfold created. by rewrite omap_app. Qed.
Lemma occ_insert p j x : occ (<[j := x]> p) = <[j := fst <$> x]> (occ p).
Proof. unfold occ. by rewrite list_fmap_insert. Qed.
Lemma occ_lookup p j : occ p !! j = (fun x : option (nat * code L V) => fst <$> x) <$> (p !! j).
Proof. unfold occ. apply list_lookup_fmap. Qed.
End valid.
Arguments occ : simpl never.

Section proofs.
Context {L V : Type} `{EqDecision L} (add : V -> V -> V).
Notation code := (code L V).
Notation mem := (mem L V).
Context (cs : list code) (W : nat -> L -> bool) (HI : independent_in W cs) (h0 : mem).
Let n := length cs.
Definition hidden_from (k : nat) (l : L) : Prop := exists j, j < length cs /\ j <> k /\ W j l = true.
Definition within (k : nat) (c : code) : Prop := uses (fun l => W k l = true) (hidden_from k) c.
Lemma own_visible k l : k < n -> W k l = true -> ~ hidden_from k l.
Proof using HI. intros Hk Hl (j & Hj & Hne & Hw). eapply (proj1 HI j k); eauto. Qed.
Lemma exec_agree k c h h' : within k c -> (forall l, ~ hidden_from k l -> h l = h' l) ->
  (exec c h).1 = (exec c h').1 /\ forall l, ~ hidden_from k l -> (exec c h).2 l = (exec c h').2 l.
Proof using.
  revert h h'. induction c as [v|l f IH|l v c IH]; intros h h' Hw Ha; cbn in *.
  - done.
  - destruct Hw as [Hl Hf]. rewrite <- (Ha l Hl). apply IH; [apply Hf|done].
  - destruct Hw as [Hl Hc]. apply IH; [done|]. intros x Hx. unfold upd. destruct (decide (x = l)); [done|by apply Ha].
Qed.
Lemma exec_frame k c h l : within k c -> W k l = false -> (exec c h).2 l = h l.
Proof using.
  revert h. induction c as [v|l' f IH|l' v c IH]; intros h Hw Hl; cbn in *.
  - done.
  - apply IH; [apply Hw|done].
  - destruct Hw as [Hl' Hc]. rewrite IH by done. unfold upd. rewrite decide_False; [done|]. intros ->. congruence.
Qed.
Lemma within_cs k c : cs !! k = Some c -> within k c.
Proof using HI. intros E. by apply (proj2 HI). Qed.

Definition result (k : nat) : option V := (fun c => (exec c h0).1) <$> cs !! k.
Record Inv (T : V) (s : state L V) : Prop := {
  i_run : forall j k c, pool s !! j = Some (Some (k, c)) -> exists c0, cs !! k = Some c0 /\ within k c /\ (exec c (memory s)).1 = (exec c0 h0).1 /\
            forall l, W k l = true -> (exec c (memory s)).2 l = (exec c0 h0).2 l;
  i_dist : forall j j' k c c', pool s !! j = Some (Some (k, c)) -> pool s !! j' = Some (Some (k, c')) -> j = j';
  i_new : forall j k c, pool s !! j = Some (Some (k, c)) -> k ∉ labels (todo s);
  i_nodup : NoDup (labels (todo s));
  i_create : forall k c, (k, c) ∈ created (todo s) -> cs !! k = Some c /\ forall l, W k l = true -> memory s l = h0 l;
  i_done : forall k c0, cs !! k = Some c0 -> k ∉ labels (todo s) -> (forall j c, pool s !! j <> Some (Some (k, c))) -> forall l, W k l = true -> memory s l = (exec c0 h0).2 l;
  i_rest : forall l, (forall k, k < n -> W k l = false) -> memory s l = h0 l;
  i_valid : exists ks, valid (todo s) (occ (pool s)) ks /\ foldl add (total s) (omap result ks) = T }.

Lemma hidden_W k l : (forall j, j < n -> W j l = false) -> ~ hidden_from k l.
Proof using. intros H (j & Hj & _ & E). rewrite H in E; done. Qed.

Lemma inv_step T s s' : Inv T s -> step add s s' -> Inv T s'.
Proof using HI.
  intros I S. destruct S as [j k c r p h t Hj|j k v r p h t Hj|j k l f r p h t Hj|j k l v c r p h t Hj]; destruct I as [Irun Idist Inew Ind Icr Idone Irest (ks & Iv & IT)]; cbn in *.
  - (* create *)
    assert (Hl : j < length p) by (by eapply lookup_lt_Some).
    apply list.NoDup_cons in Ind as [Hk Hnd].
    destruct (Icr k c) as [Ec Hm]; [by left|].
    split; cbn.
    + intros j1 k1 c1 E. destruct (decide (j1 = j)) as [->|Hne].
      * rewrite list_lookup_insert in E by done. injection E as <- <-. exists c. split; [done|]. split; [by apply within_cs|].
        destruct (exec_agree k c h h0) as [E1 E2]; [by apply within_cs| |split; [done|]; intros l Hlk; apply E2; apply own_visible; [by eapply lookup_lt_Some|done]].
        intros l Hlk. destruct (W k l) eqn:EW; [by apply Hm|]. apply Irest. intros k' Hk'. destruct (decide (k' = k)) as [->|]; [done|]. destruct (W k' l) eqn:EW'; [|done]. exfalso. apply Hlk. by exists k'.
      * rewrite list_lookup_insert_ne in E by done. by eapply Irun.
    + intros j1 j2 k1 c1 c2 E1 E2. destruct (decide (j1 = j)) as [->|H1], (decide (j2 = j)) as [->|H2]; [done|..].
      * rewrite list_lookup_insert in E1 by done. rewrite list_lookup_insert_ne in E2 by done. injection E1 as <- <-. exfalso. apply (Inew _ _ _ E2). by left.
      * rewrite list_lookup_insert in E2 by done. rewrite list_lookup_insert_ne in E1 by done. injection E2 as <- <-. exfalso. apply (Inew _ _ _ E1). by left.
      * rewrite list_lookup_insert_ne in E1, E2 by done. by eapply Idist.
    + intros j1 k1 c1 E. destruct (decide (j1 = j)) as [->|Hne].
      * rewrite list_lookup_insert in E by done. injection E as <- <-. done.
      * rewrite list_lookup_insert_ne in E by done. intros Hin. apply (Inew _ _ _ E). by right.
    + done.
    + intros k1 c1 Hin. apply Icr. by right.
    + intros k1 c1 E1 Hn1 Hp1. apply Idone; [done| |].
      * intros Hin. apply elem_of_cons in Hin as [->|Hin]; [|done]. eapply (Hp1 j). by rewrite list_lookup_insert.
      * intros j1 c2 E2. destruct (decide (j1 = j)) as [->|Hne]; [by rewrite Hj in E2|]. eapply (Hp1 j1). by rewrite list_lookup_insert_ne.
    + done.
    + destruct Iv as [_ Iv]. exists ks. split; [|done]. by rewrite occ_insert.
  - (* join *)
    destruct Iv as (k1 & ks' & -> & Ho & Iv). rewrite occ_lookup, Hj in Ho. cbn in Ho. injection Ho as <-.
    assert (Hl : j < length p) by (by eapply lookup_lt_Some).
    destruct (Irun _ _ _ Hj) as (c0 & Ec & _ & ER & EM). cbn in ER, EM.
    split; cbn.
    + intros j1 k1 c1 E. destruct (decide (j1 = j)) as [->|Hne]; [by rewrite list_lookup_insert in E|]. rewrite list_lookup_insert_ne in E by done. by eapply Irun.
    + intros j1 j2 k1 c1 c2 E1 E2. destruct (decide (j1 = j)) as [->|H1]; [by rewrite list_lookup_insert in E1|]. destruct (decide (j2 = j)) as [->|H2]; [by rewrite list_lookup_insert in E2|].
      rewrite list_lookup_insert_ne in E1, E2 by done. by eapply Idist.
    + intros j1 k1 c1 E. destruct (decide (j1 = j)) as [->|Hne]; [by rewrite list_lookup_insert in E|]. rewrite list_lookup_insert_ne in E by done. by eapply Inew.
    + done.
    + done.
    + intros k1 c1 E1 Hn1 Hp1 l Hlw. destruct (decide (k1 = k)) as [->|Hne].
      * rewrite Ec in E1. injection E1 as <-. by apply EM.
      * eapply Idone; [done|done| |done]. intros j1 c2 E2. destruct (decide (j1 = j)) as [->|Hne2]; [rewrite Hj in E2; by injection E2 as <- <-|]. eapply (Hp1 j1). by rewrite list_lookup_insert_ne.
    + done.
    + exists ks'. split; [by rewrite occ_insert|]. rewrite <- IT. cbn. unfold result at 2. rewrite Ec. cbn. by rewrite ER.
  - (* read *)
    assert (Hl : j < length p) by (by eapply lookup_lt_Some).
    assert (Hpool : forall j1 k1 c1, <[j := Some (k, f (h l))]> p !! j1 = Some (Some (k1, c1)) -> exists c2, p !! j1 = Some (Some (k1, c2)) /\ (c2 = c1 \/ (j1 = j /\ k1 = k /\ c1 = f (h l)))).
    { intros j1 k1 c1 E. destruct (decide (j1 = j)) as [->|Hne]; [rewrite list_lookup_insert in E by done; injection E as <- <-; exists (Get l f); split; [done|by right]|]. rewrite list_lookup_insert_ne in E by done. exists c1. split; [done|by left]. }
    split; cbn.
    + intros j1 k1 c1 E. destruct (Hpool _ _ _ E) as (c2 & E2 & [->|(-> & -> & ->)]); [by eapply Irun|]. destruct (Irun _ _ _ Hj) as (c0 & Ec & Hw & ER & EM). exists c0. cbn in *. split; [done|]. split; [apply Hw|]. done.
    + intros j1 j2 k1 c1 c2 E1 E2. destruct (Hpool _ _ _ E1) as (d1 & F1 & _), (Hpool _ _ _ E2) as (d2 & F2 & _). by eapply Idist.
    + intros j1 k1 c1 E1. destruct (Hpool _ _ _ E1) as (d1 & F1 & _). by eapply Inew.
    + done.
    + done.
    + intros k1 c1 E1 Hn1 Hp1. apply Idone; [done|done|]. intros j1 c2 E2. destruct (decide (j1 = j)) as [->|Hne].
      * rewrite Hj in E2. injection E2 as <- <-. eapply (Hp1 j). by rewrite list_lookup_insert.
      * eapply (Hp1 j1). by rewrite list_lookup_insert_ne.
    + done.
    + exists ks. split; [|done]. rewrite occ_insert. cbn. rewrite list_insert_id; [done|]. by rewrite occ_lookup, Hj.
  - (* write *)
    assert (Hl : j < length p) by (by eapply lookup_lt_Some).
    assert (Hpool : forall j1 k1 c1, <[j := Some (k, c)]> p !! j1 = Some (Some (k1, c1)) -> (j1 <> j /\ p !! j1 = Some (Some (k1, c1))) \/ (j1 = j /\ k1 = k /\ c1 = c)).
    { intros j1 k1 c1 E. destruct (decide (j1 = j)) as [->|Hne]; [rewrite list_lookup_insert in E by done; injection E as <- <-; by right|]. rewrite list_lookup_insert_ne in E by done. by left. }
    destruct (Irun _ _ _ Hj) as (c0 & Ec & Hw & ER & EM). cbn in Hw, ER, EM. destruct Hw as [Hlw Hw].
    assert (Hk : k < n) by (by eapply lookup_lt_Some).
    assert (Hother : forall k' l', k' < n -> k' <> k -> W k' l' = true -> upd h l v l' = h l').
    { intros k' l' Hk' Hne HW. unfold upd. rewrite decide_False; [done|]. intros ->. by eapply (proj1 HI k k' l). }
    split; cbn.
    + intros j1 k1 c1 E. destruct (Hpool _ _ _ E) as [[Hne E1]|(-> & -> & ->)]; [|by exists c0].
      assert (Hk1 : k1 <> k) by (intros ->; by apply Hne, (Idist j1 j k c1 (Set_ l v c))).
      destruct (Irun _ _ _ E1) as (c01 & Ec1 & Hw1 & ER1 & EM1). exists c01. split; [done|]. split; [done|].
      destruct (exec_agree k1 c1 (upd h l v) h Hw1) as [F1 F2].
      { intros x Hx. unfold upd. rewrite decide_False; [done|]. intros ->. apply Hx. by exists k. }
      rewrite F1. split; [done|]. intros x Hx. rewrite F2; [by apply EM1|]. apply own_visible; [by eapply lookup_lt_Some|done].
    + intros j1 j2 k1 c1 c2 E1 E2. destruct (Hpool _ _ _ E1) as [[Hne1 F1]|(-> & -> & ->)], (Hpool _ _ _ E2) as [[Hne2 F2]|(-> & G & ->)]; [by eapply Idist|subst; by eapply Idist|by eapply Idist|done].
    + intros j1 k1 c1 E1. destruct (Hpool _ _ _ E1) as [[Hne F1]|(-> & -> & ->)]; by eapply Inew.
    + done.
    + intros k1 c1 Hin. destruct (Icr k1 c1 Hin) as [E1 E2]. split; [done|]. intros x Hx. rewrite (Hother k1); [by apply E2|by eapply lookup_lt_Some| |done].
      intros ->. apply (Inew _ _ _ Hj). apply elem_of_list_fmap. exists (k, c1). done.
    + intros k1 c1 E1 Hn1 Hp1 x Hx.
      assert (Hne : k1 <> k) by (intros ->; eapply (Hp1 j); by rewrite list_lookup_insert).
      rewrite (Hother k1); [|by eapply lookup_lt_Some|done|done]. eapply Idone; [done|done| |done].
      intros j1 c2 E2. destruct (decide (j1 = j)) as [->|Hne2]; [rewrite Hj in E2; by injection E2 as <- <-|]. eapply (Hp1 j1). by rewrite list_lookup_insert_ne.
    + intros x Hx. unfold upd. rewrite decide_False; [by apply Irest|]. intros ->. rewrite Hx in Hlw; done.
    + exists ks. split; [|done]. rewrite occ_insert. cbn. rewrite list_insert_id; [done|]. by rewrite occ_lookup, Hj.
Qed.

(** the sequential result *)
Lemma one_by_one_app (a b : list code) (h : mem) : one_by_one (a ++ b) h = one_by_one b (one_by_one a h).
Proof using. revert h. induction a as [|c a IH]; intros h; cbn; [done|apply IH]. Qed.
Lemma one_by_one_at i l : i <= n ->
  (forall k c, cs !! k = Some c -> W k l = true -> one_by_one (take i cs) h0 l = if decide (k < i) then (exec c h0).2 l else h0 l) /\
  ((forall k, k < n -> W k l = false) -> one_by_one (take i cs) h0 l = h0 l).
Proof using HI.
  revert l. induction i as [|i IH]; intros l Hi; [by rewrite take_0; split; [intros; rewrite decide_False by lia|]|].
  destruct (lookup_lt_is_Some_2 cs i) as [ci Eci]; [unfold n in Hi; lia|]. rewrite (take_S_r _ _ ci Eci), one_by_one_app. cbn.
  pose proof (within_cs i ci Eci) as Hw. split.
  - intros k c Ek HW. destruct (decide (k = i)) as [->|Hne].
    + rewrite Eci in Ek. injection Ek as <-. rewrite decide_True by lia. refine (proj2 (exec_agree i ci _ h0 Hw _) l _); [|by apply own_visible; [apply lookup_lt_Some in Eci|]].
      intros x Hx. destruct (W i x) eqn:EW.
      * rewrite (proj1 (IH x ltac:(lia)) i ci Eci EW). by rewrite decide_False by lia.
      * apply (IH x); [lia|]. intros k Hk. destruct (decide (k = i)) as [->|]; [done|]. destruct (W k x) eqn:EWk; [|done]. exfalso. apply Hx. by exists k.
    + assert (HWi : W i l = false).
      { destruct (W i l) eqn:EW; [|done]. exfalso. apply lookup_lt_Some in Eci, Ek. by apply (proj1 HI i k l Eci Ek). }
      rewrite (exec_frame i) by done.
      rewrite (proj1 (IH l ltac:(lia)) k c Ek HW). destruct (decide (k < i)), (decide (k < S i)); (done || lia).
  - intros HW. rewrite (exec_frame i) by (done || (apply HW; lia)). apply IH; [lia|done].
Qed.
Lemma one_by_one_own k c l : cs !! k = Some c -> W k l = true -> one_by_one cs h0 l = (exec c h0).2 l.
Proof using HI.
  intros E HW. destruct (one_by_one_at n l) as [H1 _]; [done|]. unfold n in *. rewrite firstn_all in H1. rewrite (H1 k c E HW). rewrite decide_True; [done|]. by eapply lookup_lt_Some.
Qed.
Lemma one_by_one_rest l : (forall k, k < n -> W k l = false) -> one_by_one cs h0 l = h0 l.
Proof using HI. intros HW. destruct (one_by_one_at n l) as [_ H1]; [done|]. unfold n in *. rewrite firstn_all in H1. by apply H1. Qed.

Lemma occ_none p : Forall (fun x => x = None) (occ p) -> Forall (fun x : option (nat * code) => x = None) p.
Proof using. rewrite !list.Forall_forall. intros H x Hx. specialize (H (fst <$> x)). destruct x; [|done]. cbn in H. discriminate H. unfold occ. apply elem_of_list_fmap. by exists (Some p0). Qed.
Lemma inv_race T s : Inv T s -> ~ race s.
Proof using HI.
  intros I (j1 & j2 & k1 & k2 & c1 & c2 & l & b1 & b2 & Hne & E1 & E2 & A1 & A2 & B).
  assert (Hk : k1 <> k2) by (intros ->; apply Hne; by eapply (i_dist _ _ I)).
  destruct (i_run _ _ I _ _ _ E1) as (d1 & F1 & W1 & _), (i_run _ _ I _ _ _ E2) as (d2 & F2 & W2 & _).
  apply lookup_lt_Some in F1, F2.
  destruct c1 as [|l1 f1|l1 v1 c1], c2 as [|l2 f2|l2 v2 c2]; cbn in A1, A2; try done; injection A1 as <- <-; injection A2 as <- <-; cbn in *; try done.
  - apply (proj1 W1). exists k2. split; [done|]. split; [done|apply W2].
  - apply (proj1 W2). exists k1. split; [done|]. split; [done|apply W1].
  - eapply (proj1 HI k1 k2); [done|done|done|apply W1|apply W2].
Qed.
Lemma inv_progress T s : Inv T s -> (finished s /\ (forall l, memory s l = one_by_one cs h0 l) /\ total s = T) \/ exists s2, step add s s2.
Proof using HI.
  intros I. destruct s as [td p h t]. destruct td as [|[j k c|j] r].
  - left. destruct (i_valid _ _ I) as (ks & [-> Ho] & ET). cbn in *. apply occ_none in Ho. split; [done|]. split; [|done]. intros l.
    assert (D : (exists k, k < n /\ W k l = true) \/ forall k, k < n -> W k l = false).
    { generalize n. intros m. induction m as [|m [IH|IH]]; [right; lia|left; destruct IH as (k & ? & ?); exists k; split; [lia|done]|]. destruct (W m l) eqn:E; [left; exists m; split; [lia|done]|]. right. intros k Hk. destruct (decide (k = m)) as [->|]; [done|apply IH; lia]. }
    destruct D as [(k & Hk & HW)|HW].
    + destruct (lookup_lt_is_Some_2 cs k Hk) as [c Ec]. rewrite (one_by_one_own k c l Ec HW). eapply (i_done _ _ I); [done|apply not_elem_of_nil| |done].
      intros j c' E. cbn in E. rewrite list.Forall_forall in Ho. apply elem_of_list_lookup_2 in E. apply Ho in E. done.
    + rewrite one_by_one_rest by done. by apply (i_rest _ _ I).
  - right. destruct (i_valid _ _ I) as (ks & [Ho _] & _). cbn in Ho. rewrite occ_lookup in Ho. destruct (p !! j) as [[x|]|] eqn:E; cbn in Ho; try done. eexists. by constructor.
  - right. destruct (i_valid _ _ I) as (ks & (k & ks' & _ & Ho & _) & _). cbn in Ho. rewrite occ_lookup in Ho. destruct (p !! j) as [[[k' [v|l f|l v c]]|]|] eqn:E; cbn in Ho; try done; eexists.
    + by eapply step_join.
    + by eapply step_get.
    + by eapply step_set.
Qed.
End proofs.

Section finite.
Context {L V : Type} `{EqDecision L} (add : V -> V -> V).
Notation code := (code L V).
Notation mem := (mem L V).
(** a thread step, whatever the memory *)
Inductive cstep : code -> code -> Prop := cs_get l f v : cstep (Get l f) (f v) | cs_set l v c : cstep (Set_ l v c) c.
Lemma cstep_acc (c : code) : Acc (fun x y => cstep y x) c.
Proof. induction c as [v|l f IH|l v c IH]; constructor; intros y S; inversion S; subst; [apply IH|done]. Qed.
Definition pstep (p p' : list (option (nat * code))) : Prop := exists j k c c', p !! j = Some (Some (k, c)) /\ cstep c c' /\ p' = <[j := Some (k, c')]> p.
Lemma pstep_acc p : Acc (fun x y => pstep y x) p.
Proof.
  induction p as [|x p IH]; [constructor; intros y (j & k & c & c' & E & _); done|].
  destruct x as [[k c]|].
  - revert p IH. induction (cstep_acc c) as [c _ IHc]. intros p IHp. induction IHp as [p Hp IHp]. constructor. intros y (j & k1 & c1 & c2 & E & S & ->). destruct j as [|j]; cbn in *.
    + injection E as <- <-. apply IHc; [done|]. by constructor.
    + apply IHp. by exists j, k1, c1, c2.
  - induction IH as [p Hp IHp]. constructor. intros y (j & k1 & c1 & c2 & E & S & ->). destruct j as [|j]; cbn in *; [done|]. apply IHp. by exists j, k1, c1, c2.
Qed.
Lemma finite (s : state L V) : Acc (fun x y => step add y x) s.
Proof.
  destruct s as [td p h t]. revert p h t. induction td as [|x td IH]; intros p; induction (pstep_acc p) as [p _ IHp]; intros h t; constructor; intros y S; inversion S; subst.
  - apply IHp. repeat eexists; [done|constructor].
  - apply IHp. repeat eexists; [done|constructor].
  - apply IH.
  - apply IH.
  - apply IHp. repeat eexists; [done|constructor].
  - apply IHp. repeat eexists; [done|constructor].
Qed.
End finite.

Lemma elem_of_created_labels {L V} k (td : list (call L V)) : k ∈ labels td <-> exists c, (k, c) ∈ created td.
Proof. unfold labels. rewrite elem_of_list_fmap. split; [intros ([k' c] & -> & H); by exists c|intros [c H]; by exists (k, c)]. Qed.
(** a valid list of calls that creates every piece of work once *)
Lemma dispatched {L V} `{EqDecision L} (add : V -> V -> V) (cs : list (code L V)) (td : list (call L V)) (threads : nat) (h : mem L V) (zero : V) (ks : list nat) :
  independent cs -> valid td (replicate threads None) ks -> created td = imap pair cs ->
  always_finishes add (start threads td h zero) (one_by_one cs h) (foldl add zero (omap (fun k => (fun c => (exec c h).1) <$> cs !! k) ks)).
Proof.
  intros [W HI] Hv Hc. split; [apply finite|].
  assert (Hlab : labels td = seq 0 (length cs)).
  { unfold labels. rewrite Hc. apply list_eq. intros i. rewrite list_lookup_fmap, list_lookup_imap. destruct (cs !! i) as [c|] eqn:E; cbn.
    - symmetry. apply lookup_seq. split; [lia|by eapply lookup_lt_Some].
    - symmetry. apply lookup_seq_ge. by apply lookup_ge_None. }
  assert (I : Inv add cs W h (foldl add zero (omap (result cs h) ks)) (start threads td h zero)).
  { split; unfold start; cbn [todo pool memory total].
    - intros j k c E. apply lookup_replicate in E. naive_solver.
    - intros j j' k c c' E. apply lookup_replicate in E. naive_solver.
    - intros j k c E. apply lookup_replicate in E. naive_solver.
    - rewrite Hlab. apply NoDup_seq.
    - intros k c Hin. rewrite Hc in Hin. apply elem_of_lookup_imap in Hin as (i & x & [= -> ->] & E). done.
    - intros k c0 E Hn. exfalso. apply Hn. rewrite Hlab. apply elem_of_seq. apply lookup_lt_Some in E. lia.
    - done.
    - exists ks. split; [|done]. unfold occ. by rewrite fmap_replicate. }
  intros s1 S. assert (I1 : Inv add cs W h (foldl add zero (omap (result cs h) ks)) s1).
  { clear Hv Hc Hlab. induction S as [|x y z S _ IH]; [done|]. apply IH. by eapply inv_step. }
  split; [by eapply inv_race|]. by eapply inv_progress in I1.
Qed.
