From Verif Require Import NumLib NumLib2 Upd_Model Upd_Spec.
Open Scope nat_scope.

(** sums of step counts *)
Fixpoint nsum (n : nat) (f : nat -> nat) : nat := match n with 0 => 0 | S n => nsum n f + f n end.
Lemma nsum_ext n f g : (forall i, i < n -> f i = g i) -> nsum n f = nsum n g.
Proof. induction n as [|n IH]; intros H; cbn; [done|]. rewrite IH by (intros; apply H; lia). rewrite H by lia. done. Qed.
Lemma nsum_0 n f : (forall i, i < n -> f i = 0) -> nsum n f = 0.
Proof. induction n as [|n IH]; intros H; cbn; [done|]. rewrite IH by (intros; apply H; lia). rewrite H by lia. done. Qed.
Lemma nsum_plus n f g : nsum n (fun i => f i + g i) = nsum n f + nsum n g.
Proof. induction n as [|n IH]; cbn; [done|]. rewrite IH. lia. Qed.
Lemma nsum_const n c : nsum n (fun _ => c) = n * c.
Proof. induction n as [|n IH]; cbn; [done|]. rewrite IH. lia. Qed.
Definition ind (P : Prop) `{Decision P} : nat := if decide P then 1 else 0.
Lemma ind_iff P Q `{Decision P} `{Decision Q} : (P <-> Q) -> ind P = ind Q.
Proof. intros E. unfold ind. destruct (decide P), (decide Q); tauto. Qed.
Lemma ind_no P `{Decision P} : ~ P -> ind P = 0.
Proof. intros E. unfold ind. by rewrite decide_False. Qed.
Lemma ind_yes P `{Decision P} : P -> ind P = 1.
Proof. intros E. unfold ind. by rewrite decide_True. Qed.
Lemma nsum_ind n i : nsum n (fun k => ind (i = k)) = ind (i < n).
Proof.
  induction n as [|n IH]; cbn; [by rewrite ind_no by lia|]. rewrite IH. unfold ind. repeat destruct decide; lia.
Qed.
Lemma nsum_flat a b i : nsum a (fun j => nsum b (fun k => ind (i = j * b + k))) = ind (i < a * b).
Proof.
  induction a as [|a IH]; cbn [nsum]; [by rewrite ind_no by lia|]. rewrite IH.
  assert (nsum b (fun k => ind (i = a * b + k)) = ind (a * b <= i < S a * b)) as ->.
  { destruct (decide (a * b <= i)) as [L|L].
    - rewrite (nsum_ext _ _ (fun k => ind (i - a * b = k))) by (intros; apply ind_iff; lia). rewrite nsum_ind. apply ind_iff. lia.
    - rewrite nsum_0 by (intros; apply ind_no; lia). rewrite ind_no by lia. done. }
  unfold ind. repeat destruct decide; lia.
Qed.
Lemma nsum_flat3 a b c i : nsum a (fun u => nsum b (fun z => nsum c (fun w => ind (i = u * b * c + z * c + w)))) = ind (i < a * b * c).
Proof.
  rewrite <- (Nat.mul_assoc a b c), <- (nsum_flat a (b * c) i). apply nsum_ext. intros u Hu.
  destruct (decide (u * (b * c) <= i)) as [L|L].
  - rewrite (nsum_ext b _ (fun z => nsum c (fun w => ind (i - u * (b * c) = z * c + w)))).
    2:{ intros z Hz. apply nsum_ext. intros w Hw. apply ind_iff. rewrite <- Nat.mul_assoc. lia. }
    rewrite nsum_flat. rewrite (nsum_ext (b * c) _ (fun k => ind (i - u * (b * c) = k))) by (intros; apply ind_iff; lia). by rewrite nsum_ind.
  - rewrite !nsum_0; [done| |]; intros; [apply ind_no; lia|]. apply nsum_0. intros. apply ind_no. rewrite <- Nat.mul_assoc. lia.
Qed.

Section steps.
Context {St : Type} (step : nat -> R -> R -> St -> R * St) (mn : name -> nat) (t : name -> bool) (sz : name -> nat).

(** the function succeeds on every store of these sizes and steps entry (nm,i) exactly c nm i times *)
Definition Steps (f : store St -> option (store St)) (c : name -> nat -> nat) : Prop :=
  forall s, sized t sz s -> exists s', f s = Some s' /\ sized t sz s' /\ stepped step mn c s s'.

Lemma Steps_id : Steps Some (fun _ _ => 0).
Proof. intros s Hs. exists s. split; [done|]. split; [done|]. split; [done|]. intros nm i. split; [done|]. intros v d b Hv Hd Hb. cbn. done. Qed.
Lemma Steps_ext f c c' : Steps f c -> (forall nm i, (t nm = true -> i < sz nm) -> c nm i = c' nm i) -> Steps f c'.
Proof.
  intros H E s Hs. destruct (H s Hs) as (s' & E' & Hs' & G & P). exists s'. split; [done|]. split; [done|]. split; [done|].
  intros nm i. destruct (P nm i) as (P0 & P1). destruct (decide (t nm = true /\ sz nm <= i)) as [(T & L)|L].
  - destruct (Hs nm T) as (L1 & L2 & L3), (Hs' nm T) as (L1' & L2' & L3'). rewrite !(lookup_ge_None_2 (val _ _)), !(lookup_ge_None_2 (buf _ _)) by lia. split; [done|]. intros; done.
  - rewrite <- E by (intros T; destruct (decide (i < sz nm)); [done|exfalso; apply L; split; [done|lia]]). split; done.
Qed.
Lemma iter_plus {A} (g : A -> A) m n x : Nat.iter (m + n) g x = Nat.iter n g (Nat.iter m g x).
Proof. induction n as [|n IH]; [by rewrite Nat.add_0_r|]. rewrite Nat.add_succ_r. exact (f_equal g IH). Qed.
Lemma Steps_seq f g cf cg : Steps f cf -> Steps g cg -> Steps (fun s => s ← f s; g s) (fun nm i => cf nm i + cg nm i).
Proof.
  intros Hf Hg s Hs. destruct (Hf s Hs) as (s1 & E1 & S1 & G1 & P1). destruct (Hg s1 S1) as (s2 & E2 & S2 & G2 & P2).
  exists s2. rewrite E1. split; [done|]. split; [done|]. split; [congruence|].
  intros nm i. destruct (P1 nm i) as (Z1 & Q1), (P2 nm i) as (Z2 & Q2). split.
  - intros Z. destruct Z1 as (A1 & A2); [lia|]. destruct Z2 as (B1 & B2); [lia|]. split; congruence.
  - intros v d b Hv Hd Hb. destruct (Q1 v d b Hv Hd Hb) as (V1 & B1).
    rewrite <- G1 in Hd. destruct (Q2 _ d _ V1 Hd B1) as (V2 & B2). cbv zeta. rewrite iter_plus.
    match goal with |- context [Nat.iter (cg nm i) ?F ?x] => replace x with (x.1, x.2) by (by destruct x) end. done.
Qed.
Lemma Steps_loop n body c : (forall k, k < n -> Steps (body k) (c k)) -> Steps (for_loop n 0 body) (fun nm i => nsum n (fun k => c k nm i)).
Proof.
  induction n as [|n IH]; intros H; cbn [nsum].
  - apply Steps_id.
  - assert (Steps (fun s => s ← for_loop n 0 body s; body n s) (fun nm i => nsum n (fun k => c k nm i) + c n nm i)) as E.
    { apply Steps_seq; [apply IH; intros; apply H; lia|apply H; lia]. }
    intros s Hs. destruct (E s Hs) as (s' & E' & R). exists s'. split; [|done]. rewrite for_loop_S_r. done.
Qed.
Lemma Steps_upd m nm i : t nm = true -> i < sz nm -> m = mn nm -> Steps (upd step m nm i) (fun nm' i' => ind (nm' = nm /\ i' = i)).
Proof.
  intros T Hi -> s Hs. destruct (Hs nm T) as (L1 & L2 & L3).
  destruct (lookup_lt_is_Some_2 (val s nm) i) as [v Hv]; [lia|]. destruct (lookup_lt_is_Some_2 (grad s nm) i) as [d Hd]; [lia|].
  destruct (lookup_lt_is_Some_2 (buf s nm) i) as [b Hb]; [lia|].
  unfold upd, rd. rewrite Hv, Hd, Hb. cbn [mbind option_bind]. eexists. split; [done|]. split; [|split].
  - intros nm' T'. cbn. unfold fset. destruct (decide (nm' = nm)) as [->|]; [rewrite !insert_length; done|by apply Hs].
  - done.
  - intros nm' i'. cbn [val buf]. unfold fset, ind.
    destruct (decide (nm' = nm)) as [->|N].
    + destruct (decide (i' = i)) as [->|Ni].
      * rewrite decide_True by done. split; [done|]. intros v' d' b' Hv' Hd' Hb'. simplify_eq. cbn. rewrite !list_lookup_insert by lia. done.
      * rewrite decide_False by (intros [_ ?]; done). cbn. rewrite !list_lookup_insert_ne by done. done.
    + rewrite decide_False by (intros [? _]; done). cbn. done.
Qed.
Lemma Steps_case (P : Prop) `{Decision P} f g cf cg : (P -> Steps f cf) -> (~ P -> Steps g cg) ->
  Steps (fun s => if decide P then f s else g s) (fun nm i => if decide P then cf nm i else cg nm i).
Proof. intros Hf Hg. destruct (decide P); auto. Qed.
Lemma Steps_eq f g c : (forall s, f s = g s) -> Steps g c -> Steps f c.
Proof. intros E H s Hs. rewrite E. by apply H. Qed.

(** batch-norm layers *)
Lemma Steps_bns m bns : (forall b, m = mn (Gamma b) /\ m = mn (Beta b)) ->
  (forall b, group_trains bns b = true -> t (Gamma b) = true /\ t (Beta b) = true /\ sz (Gamma b) = group_dim bns b /\ sz (Beta b) = group_dim bns b) ->
  Steps (update_bns step m bns) (fun nm i => match nm with
     | Gamma b | Beta b => ind (i < group_dim bns b /\ group_trains bns b = true) | _ => 0 end).
Proof.
  intros Hm Hsz. unfold update_bns. eapply Steps_ext.
  - apply Steps_loop with (c := fun b nm i => if group_trains bns b then nsum (group_dim bns b) (fun j => ind (nm = Gamma b /\ i = j) + ind (nm = Beta b /\ i = j)) else 0).
    intros b Hb. destruct (lookup_lt_is_Some_2 bns b Hb) as [x Hx].
    eapply Steps_eq; [intros s; unfold rd; rewrite Hx; cbn [mbind option_bind]; reflexivity|].
    specialize (Hsz b). unfold group_trains, group_dim in *. rewrite Hx in *. destruct (bnl_train x).
    + apply Steps_loop with (c := fun j nm i => ind (nm = Gamma b /\ i = j) + ind (nm = Beta b /\ i = j)). intros j Hj.
      destruct (Hsz eq_refl) as (T1 & T2 & Z1 & Z2). apply Steps_seq; apply Steps_upd; try done; try lia; apply Hm.
    + apply Steps_id.
  - intros nm i Hi.
    assert (forall b0, b0 < length bns -> nsum (length bns) (fun b => if group_trains bns b then nsum (group_dim bns b) (fun j => ind (b = b0 /\ i = j)) else 0) = ind (i < group_dim bns b0 /\ group_trains bns b0 = true)) as M.
    { intros b0 Hb0. rewrite (nsum_ext _ _ (fun b => ind (b0 = b) * ind (i < group_dim bns b0 /\ group_trains bns b0 = true))).
      2:{ intros b Hb. destruct (decide (b0 = b)) as [->|N].
          - rewrite (ind_yes (b = b)) by done. destruct (group_trains bns b).
            + rewrite (nsum_ext _ _ (fun j => ind (i = j))) by (intros; apply ind_iff; tauto). rewrite nsum_ind. unfold ind. repeat destruct decide; intuition lia.
            + rewrite ind_no by (intros [_ ?]; done). lia.
          - rewrite (ind_no (b0 = b)) by done. destruct (group_trains bns b); [|lia]. rewrite nsum_0; [lia|]. intros. apply ind_no. intros [? _]. congruence. }
      clear -Hb0. generalize (ind (i < group_dim bns b0 /\ group_trains bns b0 = true)). intros c.
      assert (forall n, nsum n (fun b => ind (b0 = b) * c) = ind (b0 < n) * c) as E.
      { induction n as [|n IH]; cbn [nsum]; [by rewrite ind_no by lia|]. rewrite IH. unfold ind. repeat destruct decide; lia. }
      rewrite E, ind_yes by lia. lia. }
    assert (forall b0, length bns <= b0 -> ind (i < group_dim bns b0 /\ group_trains bns b0 = true) = 0) as M0.
    { intros b0 L. apply ind_no. unfold group_trains. rewrite lookup_ge_None_2 by lia. intros [_ ?]. done. }
    destruct nm; cbn beta iota; try (apply nsum_0; intros b' Hb'; destruct (group_trains bns b'); [|done]; apply nsum_0; intros j' Hj'; rewrite !ind_no; [done| |]; intros [? _]; done).
    + destruct (decide (b < length bns)) as [L|L].
      * rewrite <- (M b L). apply nsum_ext. intros b' Hb'. destruct (group_trains bns b'); [|done]. apply nsum_ext. intros j Hj.
        rewrite (ind_no (Gamma b = Beta b' /\ i = j)) by (intros [? _]; done). rewrite Nat.add_0_r. apply ind_iff. split; intros [? ?]; split; congruence.
      * rewrite M0 by lia. apply nsum_0. intros b' Hb'. destruct (group_trains bns b'); [|done]. apply nsum_0. intros j Hj.
        rewrite !ind_no; [done| |]; intros [E _]; simplify_eq; lia.
    + destruct (decide (b < length bns)) as [L|L].
      * rewrite <- (M b L). apply nsum_ext. intros b' Hb'. destruct (group_trains bns b'); [|done]. apply nsum_ext. intros j Hj.
        rewrite (ind_no (Beta b = Gamma b' /\ i = j)) by (intros [? _]; done). rewrite Nat.add_0_l. apply ind_iff. split; intros [? ?]; split; congruence.
      * rewrite M0 by lia. apply nsum_0. intros b' Hb'. destruct (group_trains bns b'); [|done]. apply nsum_0. intros j Hj.
        rewrite !ind_no; [done| |]; intros [E _]; simplify_eq; lia.
Qed.

Lemma nsum_nm n (f : nat -> nat) (P : Prop) `{Decision P} : nsum n (fun k => ind (P /\ f k = 0)) = (if decide P then nsum n (fun k => ind (f k = 0)) else 0).
Proof. destruct (decide P); [apply nsum_ext; intros; apply ind_iff; tauto|apply nsum_0; intros; apply ind_no; tauto]. Qed.
Lemma ind_andl P Q `{Decision P} `{Decision Q} : ind (P /\ Q) = (if decide P then ind Q else 0).
Proof. destruct (decide P); [apply ind_iff; tauto|apply ind_no; tauto]. Qed.

Lemma Steps_some_if (q : bool) f c : Steps f c -> Steps (fun s => if q then f s else Some s) (fun nm i => if q then c nm i else 0).
Proof. destruct q; [done|intros; apply Steps_id]. Qed.

Lemma Steps_fcl m bm f : (forall nm, t nm = fcl_trains f nm) -> (forall nm, sz nm = fcl_sizes f nm) -> (forall nm, mn nm = minis m bm nm) ->
  Steps (update_fcl step m bm f) (fun nm _ => if fcl_trains f nm then 1 else 0).
Proof.
  intros Ht Hsz Hmn. unfold update_fcl. destruct (decide (fl_mode f <> FREEZE_TRAINING /\ fl_only_dropout f = false)) as [(F & D)|F].
  2:{ eapply Steps_ext; [apply Steps_id|]. intros nm i Hi. unfold fcl_trains. destruct (fl_only_dropout f); [done|].
      assert (fl_mode f = FREEZE_TRAINING) as E. { destruct (decide (fl_mode f = FREEZE_TRAINING)); [done|]. exfalso. by apply F. }
      rewrite E. destruct nm; try done; try (destruct b; done). }
  eapply Steps_ext.
  - apply Steps_seq.
    + apply Steps_loop with (c := fun j nm i => nsum (fl_in f) (fun k =>
          if decide (fl_mode f = GRADIENT_DESCENT \/ fl_mode f = FREEZE_BIASES) then ind (nm = Weights /\ i = j * fl_in f + k) + (if fl_noisy f then ind (nm = NoisyWeights /\ i = j * fl_in f + k) else 0)
          else if decide (fl_mode f = EDGE_POPUP) then ind (nm = Scores /\ i = j * fl_in f + k) else 0)
        + (if decide (fl_mode f = GRADIENT_DESCENT) then ind (nm = Biases /\ i = j) + (if fl_noisy f then ind (nm = NoisyBiases /\ i = j) else 0) else 0)).
      intros j Hj. apply Steps_seq.
      * apply Steps_loop with (c := fun k nm i => if decide (fl_mode f = GRADIENT_DESCENT \/ fl_mode f = FREEZE_BIASES) then ind (nm = Weights /\ i = j * fl_in f + k) + (if fl_noisy f then ind (nm = NoisyWeights /\ i = j * fl_in f + k) else 0)
          else if decide (fl_mode f = EDGE_POPUP) then ind (nm = Scores /\ i = j * fl_in f + k) else 0).
        intros k Hk. assert (j * fl_in f + k < fl_out f * fl_in f) by nia.
        apply Steps_case; intros C1.
        -- apply Steps_seq; [apply Steps_upd; [rewrite Ht; unfold fcl_trains; rewrite D; by rewrite bool_decide_true|by rewrite Hsz|by rewrite Hmn]|].
           destruct (fl_noisy f) eqn:N; [|apply Steps_id]. apply Steps_upd; [rewrite Ht; unfold fcl_trains; rewrite D, N; by rewrite bool_decide_true|by rewrite Hsz|by rewrite Hmn].
        -- apply Steps_case; intros C2; [|apply Steps_id]. apply Steps_upd; [rewrite Ht; unfold fcl_trains; rewrite D; by rewrite bool_decide_true|by rewrite Hsz|by rewrite Hmn].
      * apply Steps_case; intros C1; [|apply Steps_id].
        apply Steps_seq; [apply Steps_upd; [rewrite Ht; unfold fcl_trains; rewrite D; by rewrite bool_decide_true|by rewrite Hsz|by rewrite Hmn]|].
        destruct (fl_noisy f) eqn:N; [|apply Steps_id]. apply Steps_upd; [rewrite Ht; unfold fcl_trains; rewrite D, N; by rewrite bool_decide_true|by rewrite Hsz|by rewrite Hmn].
    + instantiate (1 := fun nm i => match nm with Gamma b | Beta b => ind (i < group_dim (match fl_norm f with Some b => [b] | None => [] end) b /\ group_trains (match fl_norm f with Some b => [b] | None => [] end) b = true) | _ => 0 end).
      destruct (fl_norm f) as [b|] eqn:N.
      * apply Steps_bns; [intros; by rewrite !Hmn|]. intros [|b'] Hb'; [|done]. rewrite !Hsz, !Ht. unfold fcl_sizes, fcl_trains. rewrite D, N. rewrite bool_decide_true by done. done.
      * eapply Steps_ext; [apply Steps_id|]. intros nm i _. destruct nm; try done; by rewrite ind_no by (intros [_ ?]; done).
  - intros nm i Hi. rewrite Hsz, Ht in Hi. unfold fcl_sizes in Hi. unfold fcl_trains in *. rewrite D in *. rewrite nsum_plus.
    destruct nm; cbn [group_dim group_trains] in *.
    Ltac z0 f := intros; repeat (apply nsum_0; intros); repeat destruct decide; try done; repeat rewrite ind_no by (intros [? _]; done); try destruct (fl_noisy f); try done; try (apply ind_no; intros [? _]; done).
    + (* Weights *) rewrite (nsum_0 (fl_out f) (fun j => if decide (fl_mode f = GRADIENT_DESCENT) then _ else 0)).
      2:{ intros. destruct decide; [|done]. rewrite (ind_no (Weights = Biases /\ _)) by (intros [? _]; done). destruct (fl_noisy f); [|done]. by rewrite ind_no by (intros [? _]; done). }
      rewrite !Nat.add_0_r. destruct (decide (fl_mode f = GRADIENT_DESCENT \/ fl_mode f = FREEZE_BIASES)) as [C|C].
      * rewrite bool_decide_true in * by done. transitivity (ind (i < fl_out f * fl_in f)); [|apply ind_yes; by apply Hi]. rewrite <- nsum_flat.
        apply nsum_ext; intros; apply nsum_ext; intros. destruct (fl_noisy f); [rewrite (ind_no (Weights = NoisyWeights /\ _)) by (intros [? _]; done)|]; rewrite Nat.add_0_r; apply ind_iff; tauto.
      * rewrite bool_decide_false by done. apply nsum_0; intros; apply nsum_0; intros. destruct decide; [|done]. apply ind_no. intros [? _]; done.
    + (* NoisyWeights *) rewrite (nsum_0 (fl_out f) (fun j => if decide (fl_mode f = GRADIENT_DESCENT) then _ else 0)).
      2:{ intros. destruct decide; [|done]. rewrite !ind_no by (intros [? _]; done). by destruct (fl_noisy f). }
      rewrite !Nat.add_0_r. destruct (decide (fl_mode f = GRADIENT_DESCENT \/ fl_mode f = FREEZE_BIASES)) as [C|C].
      * rewrite bool_decide_true in * by done. cbn [andb] in *. destruct (fl_noisy f); [|z0 f].
        transitivity (ind (i < fl_out f * fl_in f)); [|apply ind_yes; by apply Hi]. rewrite <- nsum_flat.
        apply nsum_ext; intros; apply nsum_ext; intros. rewrite (ind_no (NoisyWeights = Weights /\ _)) by (intros [? _]; done). apply ind_iff; tauto.
      * rewrite bool_decide_false by done. apply nsum_0; intros; apply nsum_0; intros. destruct decide; [|done]. apply ind_no. intros [? _]; done.
    + (* Scores *) rewrite (nsum_0 (fl_out f) (fun j => if decide (fl_mode f = GRADIENT_DESCENT) then _ else 0)).
      2:{ intros. destruct decide; [|done]. rewrite (ind_no (Scores = Biases /\ _)) by (intros [? _]; done). destruct (fl_noisy f); [|done]. by rewrite ind_no by (intros [? _]; done). }
      rewrite !Nat.add_0_r. destruct (decide (fl_mode f = EDGE_POPUP)) as [C|C].
      * rewrite C in *. rewrite bool_decide_true in * by done. transitivity (ind (i < fl_out f * fl_in f)); [|apply ind_yes; by apply Hi]. rewrite <- nsum_flat.
        apply nsum_ext; intros; apply nsum_ext; intros. apply ind_iff; tauto.
      * rewrite bool_decide_false by done. apply nsum_0; intros; apply nsum_0; intros. destruct decide; [|done].
        rewrite ind_no by (intros [? _]; done). destruct (fl_noisy f); [|done]. apply ind_no. intros [? _]; done.
    + (* Biases *) rewrite (nsum_0 (fl_out f) (fun j => nsum _ _)).
      2:{ intros; apply nsum_0; intros. destruct decide; [rewrite ind_no by (intros [? _]; done); destruct (fl_noisy f); [|done]; apply ind_no; intros [? _]; done|].
          destruct decide; [|done]. apply ind_no; intros [? _]; done. }
      rewrite Nat.add_0_r. cbn [Nat.add]. destruct (decide (fl_mode f = GRADIENT_DESCENT)) as [C|C].
      * rewrite bool_decide_true in * by done. transitivity (ind (i < fl_out f)); [|apply ind_yes; by apply Hi]. rewrite <- nsum_ind.
        apply nsum_ext; intros. destruct (fl_noisy f); [rewrite (ind_no (Biases = NoisyBiases /\ _)) by (intros [? _]; done)|]; rewrite Nat.add_0_r; apply ind_iff; tauto.
      * rewrite bool_decide_false by done. by apply nsum_0; intros.
    + (* NoisyBiases *) rewrite (nsum_0 (fl_out f) (fun j => nsum _ _)).
      2:{ intros; apply nsum_0; intros. destruct decide; [rewrite !ind_no by (intros [? _]; done); by destruct (fl_noisy f)|].
          destruct decide; [|done]. apply ind_no; intros [? _]; done. }
      rewrite Nat.add_0_r. cbn [Nat.add]. destruct (decide (fl_mode f = GRADIENT_DESCENT)) as [C|C].
      * rewrite bool_decide_true in * by done. cbn [andb] in *. destruct (fl_noisy f); [|z0 f].
        transitivity (ind (i < fl_out f)); [|apply ind_yes; by apply Hi]. rewrite <- nsum_ind.
        apply nsum_ext; intros. rewrite (ind_no (NoisyBiases = Biases /\ _)) by (intros [? _]; done). apply ind_iff; tauto.
      * rewrite bool_decide_false by done. by apply nsum_0; intros.
    + rewrite (nsum_0 (fl_out f) (fun j => nsum _ _)) by z0 f. rewrite nsum_0 by z0 f. done.
    + rewrite (nsum_0 (fl_out f) (fun j => nsum _ _)) by z0 f. rewrite nsum_0 by z0 f. cbn [Nat.add].
      destruct b as [|b].
      * destruct (fl_norm f) as [b|]; [|rewrite ind_no by (intros [_ ?]; done); by rewrite andb_false_r]. unfold group_dim, group_trains. cbn. rewrite bool_decide_true in * by done. cbn [andb] in *.
        destruct (bnl_train b); [apply ind_yes; by split; [apply Hi|]|apply ind_no; intros [_ ?]; done].
      * apply ind_no. unfold group_trains. destruct (fl_norm f); intros [_ ?]; done.
    + rewrite (nsum_0 (fl_out f) (fun j => nsum _ _)) by z0 f. rewrite nsum_0 by z0 f. cbn [Nat.add].
      destruct b as [|b].
      * destruct (fl_norm f) as [b|]; [|rewrite ind_no by (intros [_ ?]; done); by rewrite andb_false_r]. unfold group_dim, group_trains. cbn. rewrite bool_decide_true in * by done. cbn [andb] in *.
        destruct (bnl_train b); [apply ind_yes; by split; [apply Hi|]|apply ind_no; intros [_ ?]; done].
      * apply ind_no. unfold group_trains. destruct (fl_norm f); intros [_ ?]; done.
    + rewrite (nsum_0 (fl_out f) (fun j => nsum _ _)) by z0 f. rewrite nsum_0 by z0 f. done.
    + rewrite (nsum_0 (fl_out f) (fun j => nsum _ _)) by z0 f. rewrite nsum_0 by z0 f. done.
    + rewrite (nsum_0 (fl_out f) (fun j => nsum _ _)) by z0 f. rewrite nsum_0 by z0 f. done.
    + rewrite (nsum_0 (fl_out f) (fun j => nsum _ _)) by z0 f. rewrite nsum_0 by z0 f. done.
    + rewrite (nsum_0 (fl_out f) (fun j => nsum _ _)) by z0 f. rewrite nsum_0 by z0 f. done.
Qed.
End steps.
