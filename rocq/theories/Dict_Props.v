(** C15: check_int_array answers whether an array was seen before. *)
From Verif Require Import BaseLemmas Dict_Model.
Open Scope nat_scope.

Fixpoint mem (ms : mystruct) (ys : list Z) : bool :=
  match ys with
  | [] => true
  | y :: rest => match ms with
    | Null => false
    | Node c son bro => if decide (c = y) then mem son rest else mem bro ys
    end
  end.

#[local] Instance prefix_dec (ys xs : list Z) : Decision (exists zs, xs = ys ++ zs).
Proof. unfold Decision. destruct (decide (ys `prefix_of` xs)) as [H|H]; [left|right]; exact H. Defined.

Lemma pre_nil xs : bool_decide (exists zs, xs = [] ++ zs) = true.
Proof. apply bool_decide_eq_true. by exists xs. Qed.
Lemma pre_cons_nil y ys : bool_decide (exists zs, [] = (y :: ys : list Z) ++ zs) = false.
Proof. apply bool_decide_eq_false. intros [zs H]. done. Qed.
Lemma pre_cons y ys x xs : bool_decide (exists zs, x :: xs = (y :: ys : list Z) ++ zs) = bool_decide (y = x) && bool_decide (exists zs, xs = ys ++ zs).
Proof.
  apply eq_bool_prop_intro. rewrite andb_True, !bool_decide_spec. split.
  - intros [zs H]. cbn in H. simplify_eq. eauto.
  - intros [-> [zs ->]]. by exists zs.
Qed.

Lemma mem_nil ms : mem ms [] = true. Proof. by destruct ms. Qed.

Lemma check_null_ok xs : (forall ys, mem (check_null xs).1 ys = mem Null ys || bool_decide (exists zs, xs = ys ++ zs)) /\ (check_null xs).2 = mem Null xs.
Proof.
  induction xs as [|x rest [IH1 IH2]]; cbn [check_null].
  - split; [|done]. intros [|y ys]; [done|]. cbn [fst mem]. by rewrite pre_cons_nil.
  - assert (Hgen : forall s (b : bool), (forall ys, mem s ys = mem Null ys || bool_decide (exists zs, rest = ys ++ zs)) ->
      forall ys, mem (Node x s Null) ys = mem Null ys || bool_decide (exists zs, x :: rest = ys ++ zs)).
    { intros s b Hs [|y ys]; [done|]. cbn [mem]. rewrite pre_cons. destruct (decide (x = y)) as [->|Hne].
      - rewrite Hs. rewrite (bool_decide_eq_true_2 (y = y)) by done. cbn [andb orb].
        destruct ys; [|done]. by rewrite pre_nil.
      - by rewrite (bool_decide_eq_false_2 (y = x)) by congruence. }
    destruct rest as [|x' rest].
    + cbn [fst snd]. split; [|done]. apply (Hgen Null true). intros ys. destruct ys as [|y ys]; [done|]. cbn [mem]. by rewrite pre_cons_nil.
    + cbv zeta. cbn [fst snd]. split; [by apply (Hgen _ true)|]. rewrite IH2. done.
Qed.


(** size bound for induction *)
Fixpoint tsize (ms : mystruct) : nat := match ms with Null => 0 | Node _ s b => 1 + tsize s + tsize b end.

Definition good (ms : mystruct) : Prop := forall xs,
  (forall ys, mem (check_int_array ms xs).1 ys = mem ms ys || bool_decide (exists zs, xs = ys ++ zs)) /\ (check_int_array ms xs).2 = mem ms xs.

Lemma check_ok_size n : forall ms, tsize ms <= n -> good ms.
Proof.
  induction n as [|n IH]; intros ms Hn xs.
  - destruct ms; [|cbn in Hn; lia]. destruct xs as [|x0 xs0]; [apply (check_null_ok [])|apply (check_null_ok (x0 :: xs0))].
  - destruct ms as [|c son bro]; [destruct xs as [|x0 xs0]; [apply (check_null_ok [])|apply (check_null_ok (x0 :: xs0))]|].
    destruct xs as [|x rest].
    { cbn. split; [|done]. intros [|y ys]; [done|]. rewrite pre_cons_nil. by rewrite orb_false_r. }
    cbn in Hn. cbn [check_int_array]. destruct (decide (c = x)) as [->|Hne].
    { destruct (IH son ltac:(lia) rest) as [H1 H2]. cbv zeta. cbn [fst snd]. split.
      - intros [|y ys]; [done|]. cbn [mem]. rewrite pre_cons. destruct (decide (x = y)) as [->|Hne].
        + rewrite H1. by rewrite (bool_decide_eq_true_2 (y = y)).
        + rewrite (bool_decide_eq_false_2 (y = x)) by congruence. by rewrite orb_false_r.
      - cbn [mem]. by rewrite decide_True. }
    (* c <> x: the brother chain *)
    assert (Hbro : forall b' r, (forall ys, mem b' ys = mem bro ys || bool_decide (exists zs, x :: rest = ys ++ zs)) -> r = mem bro (x :: rest) ->
      (forall ys, mem (Node c son b', r).1 ys = mem (Node c son bro) ys || bool_decide (exists zs, x :: rest = ys ++ zs)) /\ (Node c son b', r).2 = mem (Node c son bro) (x :: rest)).
    { intros b' r Hb Hr. cbn [fst snd]. split.
      - intros [|y ys]; [done|]. cbn [mem]. destruct (decide (c = y)) as [->|Hcy].
        + rewrite pre_cons. rewrite (bool_decide_eq_false_2 (y = x)) by done. by rewrite orb_false_r.
        + apply Hb.
      - cbn [mem]. by rewrite (decide_False (P := c = x)). }
    destruct bro as [|c2 son2 bro2].
    { pose proof (check_null_ok (x :: rest)) as [H1 H2]. cbn [check_null] in H1, H2.
      destruct rest as [|x' rest]; cbv zeta; apply Hbro; done. }
    cbn in Hn. destruct (decide (c2 <> x)) as [Hn2|Hn2].
    + cbv zeta. destruct (IH bro2 ltac:(lia) (x :: rest)) as [H1 H2]. apply Hbro.
      * intros [|y ys]; [done|]. cbn [mem]. destruct (decide (c2 = y)) as [->|].
        -- rewrite pre_cons, (bool_decide_eq_false_2 (y = x)) by done. by rewrite orb_false_r.
        -- apply H1.
      * rewrite H2. cbn [mem]. by rewrite (decide_False (P := c2 = x)).
    + assert (c2 = x) as -> by (destruct (decide (c2 = x)); [done|exfalso; by apply Hn2]).
      cbv zeta. destruct (IH son2 ltac:(lia) rest) as [H1 H2]. apply Hbro.
      * intros [|y ys]; [done|]. cbn [mem]. rewrite pre_cons. destruct (decide (x = y)) as [->|].
        -- rewrite H1. by rewrite (bool_decide_eq_true_2 (y = y)).
        -- rewrite (bool_decide_eq_false_2 (y = x)) by congruence. by rewrite orb_false_r.
      * rewrite H2. cbn [mem]. by rewrite decide_True.
Qed.
Lemma check_ok ms : good ms. Proof. by apply (check_ok_size (tsize ms)). Qed.

Lemma answers_ok calls : forall ms prev,
  (forall ys, mem ms ys = true <-> ys = [] \/ exists p, p ∈ prev /\ exists zs, p = ys ++ zs) ->
  forall i xs, calls !! i = Some xs ->
    exists b, answers ms calls !! i = Some b /\
      (b = true <-> xs = [] \/ exists p, p ∈ prev ++ take i calls /\ exists zs, p = xs ++ zs).
Proof.
  induction calls as [|c calls IH]; intros ms prev Hms i xs Hi; [done|].
  destruct (check_ok ms c) as [H1 H2]. cbn [answers]. cbv zeta. destruct i as [|i]; cbn in Hi.
  - simplify_eq. exists (mem ms xs). cbn. rewrite <- H2. split; [done|]. rewrite H2, app_nil_r. apply Hms.
  - destruct (IH (check_int_array ms c).1 (prev ++ [c])) with (i := i) (xs := xs) as (b & E & Hb); [|done|].
    + intros ys. rewrite H1, orb_true_iff, Hms, bool_decide_eq_true. set_solver.
    + exists b. split; [done|]. rewrite Hb. cbn [take]. by rewrite <- app_assoc.
Qed.

(** C15.  For every sequence of arrays of one length size >= 1, the i-th answer is 1 exactly when the
    i-th array already occurred among the earlier ones. *)
Theorem C15_seen_before : forall (size : nat) (calls : list (list Z)),
  0 < size -> (forall xs, xs ∈ calls -> length xs = size) ->
  forall i xs, calls !! i = Some xs ->
    exists b, answers Null calls !! i = Some b /\ (b = true <-> exists j, j < i /\ calls !! j = Some xs).
Proof.
  intros size calls Hs Hlen i xs Hi.
  destruct (answers_ok calls Null [] ) with (i := i) (xs := xs) as (b & E & Hb).
  { intros ys. destruct ys; cbn; [by split; [left|]|]. split; [done|]. intros [?|(p & Hp & _)]; [done|]. by apply elem_of_nil in Hp. }
  { done. }
  exists b. split; [done|]. rewrite Hb. cbn [app]. assert (Hx : length xs = size) by by apply Hlen; eapply elem_of_list_lookup_2.
  split.
  - intros [->|(p & Hp & zs & ->)]; [cbn in Hx; lia|].
    apply elem_of_list_lookup in Hp as [j Hj]. apply lookup_take_Some in Hj as [Hj Hji].
    assert (length (xs ++ zs) = size) by by apply Hlen; eapply elem_of_list_lookup_2. rewrite app_length in *.
    assert (zs = []) as -> by (apply nil_length_inv; lia). rewrite app_nil_r in Hj. eauto.
  - intros (j & Hj & Hc). right. exists xs. split; [|exists []; by rewrite app_nil_r].
    apply elem_of_list_lookup. exists j. by apply lookup_take_Some.
Qed.
Print Assumptions C15_seen_before.

(** For arrays of arbitrary lengths the answer is 1 exactly when the array is empty or is a prefix of an earlier one. *)
Theorem C15_mixed_lengths_answer_prefix : forall (calls : list (list Z)) i xs, calls !! i = Some xs ->
  exists b, answers Null calls !! i = Some b /\
    (b = true <-> xs = [] \/ exists j earlier zs, j < i /\ calls !! j = Some earlier /\ earlier = xs ++ zs).
Proof.
  intros calls i xs Hi. destruct (answers_ok calls Null []) with (i := i) (xs := xs) as (b & E & Hb).
  { intros ys. destruct ys; cbn; [by split; [left|]|]. split; [done|]. intros [?|(p & Hp & _)]; [done|]. by apply elem_of_nil in Hp. }
  { done. }
  exists b. split; [done|]. rewrite Hb. cbn [app]. split; (intros [->|H]; [by left|right]).
  - destruct H as (p & Hp & zs & Hz). apply elem_of_list_lookup in Hp as [j Hj]. apply lookup_take_Some in Hj as [Hj Hji]. eauto 10.
  - destruct H as (j & p & zs & Hj & Hp & Hz). exists p. split; [|eauto]. apply elem_of_list_lookup. exists j. by apply lookup_take_Some.
Qed.

(** So with mixed lengths it is not a set: an array never given before is reported as seen. *)
Theorem C15_mixed_lengths_refuted : answers Null [[1; 2]; [1]]%Z = [false; true].
Proof. done. Qed.

Example C15_example : answers Null [[1;2]; [1;3]; [2;2]; [1;3]; [2;1]; [1;2]]%Z = [false; false; false; true; false; true].
Proof. done. Qed.
