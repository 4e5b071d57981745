(** C16: confusion matrix and metrics. *)
From Verif Require Import RealSum Confusion_Model Confusion_Spec.
Open Scope nat_scope.

Section proofs.
  Context {V : Type} (ltb geb : V -> V -> bool).

  Definition shape (n : nat) (m : list (list nat)) : Prop := length m = n /\ forall r row, m !! r = Some row -> length row = n.

  Lemma cell_some n m r c : shape n m -> r < n -> c < n -> exists v, cell m r c = Some v.
  Proof.
    intros [H1 H2] Hr Hc. unfold cell, rd. destruct (lookup_lt_is_Some_2 m r) as [row Hrow]; [lia|]. rewrite Hrow. cbn.
    apply lookup_lt_is_Some_2. rewrite (H2 _ _ Hrow). done.
  Qed.

  Lemma incr_ok n m r c : shape n m -> r < n -> c < n ->
    exists m', incr m r c = Some m' /\ shape n m' /\
      forall r' c' v, cell m r' c' = Some v -> cell m' r' c' = Some (if decide (r' = r /\ c' = c) then v + 1 else v).
  Proof.
    intros [H1 H2] Hr Hc. unfold incr, rd. destruct (lookup_lt_is_Some_2 m r) as [row Hrow]; [lia|]. rewrite Hrow. cbn [mbind option_bind].
    destruct (lookup_lt_is_Some_2 row c) as [v Hv]; [rewrite (H2 _ _ Hrow); lia|]. rewrite Hv. cbn [mbind option_bind].
    rewrite (wr_Some row) by (rewrite (H2 _ _ Hrow); done). cbn [mbind option_bind]. rewrite (wr_Some m) by lia.
    eexists. split; [done|]. split; [split; [by rewrite insert_length|]|].
    - intros r' row' Hr'. destruct (decide (r' = r)) as [->|].
      + rewrite list_lookup_insert in Hr' by lia. injection Hr' as <-. rewrite insert_length. by eapply H2.
      + rewrite list_lookup_insert_ne in Hr' by done. by eapply H2.
    - intros r' c' w Hw. unfold cell, rd in *. destruct (decide (r' = r)) as [->|].
      + rewrite list_lookup_insert by lia. cbn. rewrite Hrow in Hw. cbn in Hw. destruct (decide (c' = c)) as [->|].
        * rewrite list_lookup_insert by (rewrite (H2 _ _ Hrow); done). rewrite decide_True by done. congruence.
        * rewrite list_lookup_insert_ne by done. rewrite decide_False by tauto. done.
      + rewrite list_lookup_insert_ne by done. rewrite decide_False by tauto. done.
  Qed.

  Context (Htot : forall x y, geb x y = negb (ltb x y)) (thr : V).

  Definition bi (b : bool) : nat := if b then 1 else 0.

  Lemma step_ok n mo re i m : shape (2 * n) m -> i < n -> length mo = n -> length re = n ->
    exists m', cm_step ltb geb mo re thr i m = Some m' /\ shape (2 * n) m' /\
      forall r c v, cell m r c = Some v -> cell m' r c =
        Some (if decide (r = 2 * i + bi (really geb thr (mo, re) i) /\ c = 2 * i + bi (predicted geb thr (mo, re) i)) then v + 1 else v).
  Proof.
    intros Hs Hi Hmo Hre. unfold cm_step, rd.
    destruct (lookup_lt_is_Some_2 re i) as [x Hx]; [lia|]. destruct (lookup_lt_is_Some_2 mo i) as [y Hy]; [lia|].
    rewrite Hx, Hy. cbn [mbind option_bind]. unfold really, predicted. cbn [fst snd]. rewrite Hx, Hy.
    rewrite !Htot. destruct (ltb x thr), (ltb y thr); cbn [negb andb bi]; rewrite ?(Nat.mul_comm i 2), ?Nat.add_0_r; apply incr_ok; done || lia.
  Qed.

  Definition hit (d : list V * list V) (r c : nat) : bool :=
    (r / 2 =? c / 2) && Bool.eqb (Nat.odd r) (really geb thr d (r / 2)) && Bool.eqb (Nat.odd c) (predicted geb thr d (r / 2)).

  Lemma half i b : (2 * i + bi b) / 2 = i.
  Proof. symmetry. apply (Nat.div_unique _ _ _ (bi b)); [destruct b; cbn; lia|lia]. Qed.
  Lemma odd_half i b : Nat.odd (2 * i + bi b) = b.
  Proof. rewrite Nat.add_comm, Nat.odd_add_mul_2. by destruct b. Qed.
  Lemma half_odd r : r = 2 * (r / 2) + bi (Nat.odd r).
  Proof.
    pose proof (Nat.div_mod r 2 ltac:(lia)) as E. rewrite E at 1. f_equal. rewrite <- Nat.bit0_mod, Nat.bit0_odd. by destruct (Nat.odd r).
  Qed.

  Lemma hit_spec d i r c : (r = 2 * i + bi (really geb thr d i) /\ c = 2 * i + bi (predicted geb thr d i)) <-> (r / 2 = i /\ hit d r c = true).
  Proof.
    unfold hit. rewrite !andb_true_iff, Nat.eqb_eq, !Bool.eqb_true_iff. split.
    - intros [-> ->]. rewrite !half, !odd_half. done.
    - intros [<- [[E1 E2] E3]]. rewrite <- E2, <- E3. split; [apply half_odd|]. rewrite E1. apply half_odd.
  Qed.

  Lemma cm_ok n mo re m : shape (2 * n) m -> length mo = n -> length re = n ->
    exists m', for_loop n 0 (cm_step ltb geb mo re thr) m = Some m' /\ shape (2 * n) m' /\
      forall r c v, r < 2 * n -> cell m r c = Some v -> cell m' r c = Some (v + bi (hit (mo, re) r c)).
  Proof.
    intros Hs Hmo Hre.
    destruct (for_loop_inv (fun i s => shape (2 * n) s /\ forall r c v, cell m r c = Some v -> cell s r c = Some (v + bi ((r / 2 <? i) && hit (mo, re) r c)))
      (cm_step ltb geb mo re thr) n 0 m) as (m' & E & Hs' & Hm').
    - split; [done|]. intros r c v Hv. rewrite Hv. cbn. f_equal. lia.
    - intros i s Hi [Hs1 Hs2]. destruct (step_ok n mo re i s Hs1 ltac:(lia) Hmo Hre) as (s' & E & Hs' & Hc).
      exists s'. split; [done|]. split; [done|]. intros r c v Hv. rewrite (Hc _ _ _ (Hs2 _ _ _ Hv)). f_equal.
      destruct (decide _) as [Hd|Hd]; rewrite hit_spec in Hd.
      + destruct Hd as [Hd1 ->]. destruct (Nat.ltb_spec (r / 2) i), (Nat.ltb_spec (r / 2) (S i)); try lia. cbn. lia.
      + destruct (hit (mo, re) r c); [|by rewrite !andb_false_r].
        destruct (Nat.ltb_spec (r / 2) i), (Nat.ltb_spec (r / 2) (S i)); try done; exfalso; [lia|].
        apply Hd. split; [lia|done].
    - exists m'. split; [done|]. split; [done|]. intros r c v Hr Hv. rewrite (Hm' _ _ _ Hv). f_equal. cbn [plus].
      assert (r / 2 < n) as ->%Nat.ltb_lt by (apply Nat.div_lt_upper_bound; lia). done.
  Qed.

  Lemma accumulate_ok n data : (forall d, d ∈ data -> length d.1 = n /\ length d.2 = n) -> forall m, shape (2 * n) m ->
    exists m', accumulate ltb geb (Some m) data n thr = Some m' /\ shape (2 * n) m' /\
      forall r c v, r < 2 * n -> cell m r c = Some v -> cell m' r c = Some (v + length (filter (fun d => hit d r c = true) data)).
  Proof.
    induction data as [|[mo re] data IH]; intros Hd m Hs; cbn [accumulate].
    - exists m. split; [done|]; split; [done|]. intros. rewrite Nat.add_0_r. done.
    - destruct (Hd (mo, re)) as [L1 L2]; [by left|]. unfold confusion_matrix. cbn [fst snd] in *.
      destruct (cm_ok n mo re m Hs L1 L2) as (m1 & -> & Hs1 & Hc1). cbn [mbind option_bind].
      destruct (IH ltac:(intros; apply Hd; by right) m1 Hs1) as (m2 & E & Hs2 & Hc2). exists m2. split; [done|]. split; [done|].
      intros r c v Hr Hv. rewrite (Hc2 _ _ _ Hr (Hc1 _ _ _ Hr Hv)). f_equal. rewrite filter_cons.
      destruct (hit (mo, re) r c); [rewrite decide_True by done|rewrite decide_False by done]; cbn; lia.
  Qed.
End proofs.

(** C16.  For every dataset (each sample with [n] model and [n] real outputs, no NaN) and threshold,
    accumulating the confusion matrix from NULL gives, for every output i, exactly the numbers of
    true positives, true negatives, false negatives and false positives in their documented cells,
    and 0 in every cell that mixes two outputs. *)
Theorem C16_confusion_counts :
  forall (V : Type) (ltb geb : V -> V -> bool) (thr : V) (n : nat) (data : list (list V * list V)),
    (forall x y, geb x y = negb (ltb x y)) -> data <> [] ->
    (forall d, d ∈ data -> length d.1 = n /\ length d.2 = n) ->
    exists m, accumulate ltb geb None data n thr = Some m /\
      (forall i, i < n ->
        cell m (2*i+1) (2*i+1) = Some (outcomes geb thr data i true true) /\
        cell m (2*i)   (2*i)   = Some (outcomes geb thr data i false false) /\
        cell m (2*i+1) (2*i)   = Some (outcomes geb thr data i true false) /\
        cell m (2*i)   (2*i+1) = Some (outcomes geb thr data i false true)) /\
      (forall r c, r < 2 * n -> c < 2 * n -> r / 2 <> c / 2 -> cell m r c = Some 0).
Proof.
  intros V ltb geb thr n data Htot Hne Hd.
  assert (Hz : shape (2 * n) (replicate (2 * n) (replicate (2 * n) 0))).
  { split; [by rewrite replicate_length|]. intros r row Hr. apply lookup_replicate in Hr as [-> _]. by rewrite replicate_length. }
  destruct (accumulate_ok ltb geb Htot thr n data Hd _ Hz) as (m & E & Hs & Hc).
  exists m. split; [destruct data; [done|exact E]|].
  assert (Hz0 : forall r c, r < 2 * n -> c < 2 * n -> cell (replicate (2 * n) (replicate (2 * n) 0)) r c = Some 0).
  { intros r c Hr Hc'. unfold cell, rd. rewrite lookup_replicate_2 by done. cbn [mbind option_bind]. by rewrite lookup_replicate_2. }
  split.
  - intros i Hi. assert (Hcell : forall a b, cell m (2*i + bi a) (2*i + bi b) = Some (outcomes geb thr data i a b)).
    { intros a b. rewrite (Hc _ _ 0); [|destruct a; cbn; lia|apply Hz0; destruct a, b; cbn; lia]. f_equal. cbn [plus]. unfold outcomes.
      f_equal. apply list_filter_iff. intros d. unfold hit. rewrite !half, !odd_half, Nat.eqb_refl. cbn [andb].
      rewrite andb_true_iff, !Bool.eqb_true_iff. intuition congruence. }
    pose proof (Hcell true true) as H1. pose proof (Hcell false false) as H2. pose proof (Hcell true false) as H3. pose proof (Hcell false true) as H4.
    cbn [bi] in *. rewrite !Nat.add_0_r in *. done.
  - intros r c Hr Hc' Hne'. rewrite (Hc _ _ 0) by (done || by apply Hz0). f_equal. cbn [plus].
    assert (forall l : list (list V * list V), filter (fun d => hit geb thr d r c = true) l = []) as ->; [|done].
    induction l as [|d l IH]; [done|]. rewrite filter_cons, decide_False; [done|]. unfold hit.
    destruct (Nat.eqb_spec (r / 2) (c / 2)); [done|]. cbn. done.
Qed.
Print Assumptions C16_confusion_counts.

(** The four outcomes of an output partition the dataset. *)
Theorem C16_outcomes_partition : forall (V : Type) (geb : V -> V -> bool) thr (data : list (list V * list V)) i,
  outcomes geb thr data i true true + outcomes geb thr data i false false +
  outcomes geb thr data i true false + outcomes geb thr data i false true = length data.
Proof.
  intros V geb thr data i. unfold outcomes. induction data as [|d data IH]; [done|]. rewrite !filter_cons.
  destruct (really geb thr d i), (predicted geb thr d i);
  repeat match goal with
  | |- context [decide ?P] => first [rewrite (decide_True (P := P)) by done | rewrite (decide_False (P := P)) by (intros [? ?]; done)]
  end; cbn [length]; lia.
Qed.

Lemma percent_range a b : a <= b -> (0 <= percent a b <= 100)%R.
Proof.
  intros H. unfold percent. destruct (decide (b = 0)); [lra|].
  assert (0 < INR b)%R by (apply lt_0_INR; lia). assert (INR a <= INR b)%R by by apply le_INR. pose proof (pos_INR a).
  split.
  - apply Rmult_le_pos; [nra|]. left. by apply Rinv_0_lt_compat.
  - apply (Rmult_le_reg_r (INR b)); [done|]. unfold Rdiv. rewrite Rmult_assoc, Rinv_l by lra. nra.
Qed.

(** The four metrics of output i are the textbook quotients in percent (0 when undefined), and lie in [0,100]. *)
Theorem C16_metrics :
  forall (V : Type) (ltb geb : V -> V -> bool) (thr : V) (n : nat) (data : list (list V * list V)) m i,
    (forall x y, geb x y = negb (ltb x y)) -> data <> [] ->
    (forall d, d ∈ data -> length d.1 = n /\ length d.2 = n) -> i < n ->
    accumulate ltb geb None data n thr = Some m ->
    let tp := outcomes geb thr data i true true in let tn := outcomes geb thr data i false false in
    let fn := outcomes geb thr data i true false in let fp := outcomes geb thr data i false true in
    let quotient (a b : nat) (x : option R) := exists v, x = Some v /\ (0 <= v <= 100)%R /\
      (b = 0 -> v = 0%R) /\ (b <> 0 -> v = (100 * (INR a / INR b))%R) in
    quotient (tp + tn) (length data) (accuracy m i) /\
    quotient tp (tp + fp) (precision m i) /\
    quotient tp (tp + fn) (sensitivity m i) /\
    quotient tn (tn + fp) (specificity m i).
Proof.
  intros V ltb geb thr n data m i Htot Hne Hd Hi Hm tp tn fn fp quotient.
  destruct (C16_confusion_counts V ltb geb thr n data Htot Hne Hd) as (m' & E & H & _). rewrite Hm in E. injection E as <-.
  destruct (H i Hi) as (H1 & H2 & H3 & H4). fold tp tn fn fp in H1, H2, H3, H4. pose proof (C16_outcomes_partition V geb thr data i) as HP.
  fold tp tn fn fp in HP.
  assert (Q : forall a b, a <= b -> quotient a b (Some (percent a b))).
  { intros a b Hab. exists (percent a b). split; [done|]. split; [by apply percent_range|]. unfold percent. split.
    - intros ->. by rewrite decide_True.
    - intros Hb. rewrite decide_False by done. unfold Rdiv. lra. }
  unfold accuracy, precision, sensitivity, specificity. rewrite !(Nat.mul_comm i 2), H1, H2, H3, H4. cbn [mbind option_bind].
  split_and!; try (apply Q; lia). replace (tp + tn) with (tn + tp) by lia. replace (length data) with (tn + tp + fn + fp) by lia. apply Q; lia.
Qed.

(** With a NaN output the sample is counted nowhere (values as optional integers, None = NaN). *)
Definition nan_ltb (x y : option Z) : bool := match x, y with Some a, Some b => (a <? b)%Z | _, _ => false end.
Definition nan_geb (x y : option Z) : bool := match x, y with Some a, Some b => (b <=? a)%Z | _, _ => false end.
Theorem C16_nan_refuted : accumulate nan_ltb nan_geb None [([None], [Some 1%Z])] 1 (Some 0%Z) = Some [[0; 0]; [0; 0]].
Proof. done. Qed.

Example C16_example : let geb x y := negb (x <? y)%Z in
  accumulate Z.ltb geb None [([1; 0], [1; 1]); ([1; 0], [0; 0])]%Z 2 1%Z = Some [[0;1;0;0]; [0;1;0;0]; [0;0;1;0]; [0;0;1;0]].
Proof. done. Qed.
