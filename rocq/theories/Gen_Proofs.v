From Coq Require Import Reals Lra.
From Verif Require Import Base BaseLemmas Shuffle_Model Shuffle_Spec Shuffle_Proofs Sort_Model Sort_Proofs Neat_Model Neat_Spec Neat_Proofs Tidy_Proofs.
From Verif Require Import Neat2_Proofs Neat3_Proofs Neat4_Proofs Neat5_Proofs Neat6_Proofs Species_Model Species_Spec Species_Proofs Species2_Proofs.
From Verif Require Import Gen_Model Gen_Spec.
Open Scope nat_scope.

(** ** Rounding and sorting *)

Lemma round_up_bounds x : (0 <= x)%R -> (IZR (round_up x) - 1 < x <= IZR (round_up x))%R.
Proof.
  intros Hx. unfold round_up, trunc. destruct (Rle_dec 0 x) as [_|H]; [|lra].
  destruct (base_Int_part x) as [H1 H2]. destruct (Req_EM_T _ _) as [E|E].
  - lra.
  - rewrite plus_IZR. lra.
Qed.

Lemma round_up_pos x : (0 < x)%R -> (1 <= round_up x)%Z.
Proof.
  intros Hx. destruct (round_up_bounds x) as [_ H]; [lra|]. assert (0 < round_up x)%Z; [|lia]. apply lt_IZR. lra.
Qed.

Lemma round_up_le x n : (0 <= x)%R -> (x <= IZR n)%R -> (round_up x <= n)%Z.
Proof.
  intros Hx Hn. destruct (round_up_bounds x Hx) as [H _]. assert (round_up x < n + 1)%Z; [|lia]. apply lt_IZR.
  rewrite plus_IZR. lra.
Qed.

Lemma sort_by_fitness_ok gs : exists gs', sort_by_fitness gs = Some gs' /\ gs' ≡ₚ gs.
Proof.
  unfold sort_by_fitness, sort_array. rewrite seq_length.
  destruct (length gs) as [|h] eqn:El.
  - apply nil_length_inv in El as ->. by exists [].
  - destruct (merge_sort_perm 1 (S (S h)) ((fun x => trunc (i_fitness x)) <$> gs) (seq 0 (S h)) 0 h) as (is_ & -> & P & _).
    + rewrite seq_length. lia.
    + rewrite fmap_length. lia.
    + lia.
    + cbn [mbind option_bind]. apply pointers_all. rewrite <- Permutation_rev. by rewrite El.
Qed.

Lemma Rle_neq_lt x : forall y, (0 <= y)%R -> y <> x -> x = 0%R -> (0 < y)%R.
Proof. intros y [H|H] Hn Hx; [done|]. congruence. Qed.

Lemma relative_ok a b : (0 <= a)%R -> (0 <= b)%R ->
  (0 <= fst (relative a b))%R /\ (0 < snd (relative a b) <= 20)%R.
Proof.
  intros Ha Hb. unfold relative. destruct (Req_EM_T b a) as [E|E]; cbn [fst snd]; [lra|].
  remember (if Req_EM_T a 0 then (1 / 1000)%R else a) as a' eqn:Ea'.
  assert (Ha' : (0 < a')%R) by (rewrite Ea'; destruct (Req_EM_T a 0); [lra|]; by apply (Rle_neq_lt 0)).
  assert (Hb' : (0 <= b / a')%R) by (apply Rmult_le_pos; [done|by apply Rlt_le, Rinv_0_lt_compat]).
  split; [lra|]. destruct (Rlt_dec _ _) as [?|H]; [lra|]. destruct (Req_EM_T (b / a') 0) as [?|H']; [lra|].
  pose proof (Rle_neq_lt _ _ Hb' H' eq_refl). lra.
Qed.

(** ** Fitness of species *)

Lemma foldl_max_ge {A} (f : A -> R) l : forall b,
  let r := foldl (fun b s => if Rlt_dec b (f s) then f s else b) b l in
  (b <= r)%R /\ forall s, s ∈ l -> (f s <= r)%R.
Proof.
  induction l as [|s l IH]; intros b; cbn.
  - split; [lra|]. intros s Hs. by apply elem_of_nil in Hs.
  - destruct (IH (if Rlt_dec b (f s) then f s else b)) as [H1 H2]. destruct (Rlt_dec b (f s)).
    + split; [lra|]. intros s' Hs. apply elem_of_cons in Hs as [->|Hs]; [lra|by apply H2].
    + split; [lra|]. intros s' Hs. apply elem_of_cons in Hs as [->|Hs]; [lra|by apply H2].
Qed.

Lemma foldl_min_le {A} (f : A -> R) l : forall b,
  let r := foldl (fun b s => if Rlt_dec (f s) b then f s else b) b l in
  (r <= b)%R /\ forall s, s ∈ l -> (r <= f s)%R.
Proof.
  induction l as [|s l IH]; intros b; cbn.
  - split; [lra|]. intros s Hs. by apply elem_of_nil in Hs.
  - destruct (IH (if Rlt_dec (f s) b then f s else b)) as [H1 H2]. destruct (Rlt_dec (f s) b).
    + split; [lra|]. intros s' Hs. apply elem_of_cons in Hs as [->|Hs]; [lra|by apply H2].
    + split; [lra|]. intros s' Hs. apply elem_of_cons in Hs as [->|Hs]; [lra|by apply H2].
Qed.

Lemma norm_nonneg oldest sig l s : s ∈ l ->
  (0 <= norm_fitness oldest sig (worst_fitness oldest sig l) (best_fitness oldest sig l) s)%R.
Proof.
  intros Hs. unfold norm_fitness. case_decide as Em; [lra|].
  destruct (Req_EM_T _ _) as [E|E]; [lra|].
  assert (Hr : raw_fitness oldest sig s = (foldl (fun a m => a + i_fitness m) 0 (s_members s) / INR (length (s_members s))
         * (1 + IZR (oldest - s_age s) * sig))%R) by (unfold raw_fitness; by rewrite decide_False by done).
  rewrite <- Hr.
  assert (H : (worst_fitness oldest sig l <= raw_fitness oldest sig s <= best_fitness oldest sig l)%R).
  { destruct l as [|t l]; [by apply elem_of_nil in Hs|].
    destruct (foldl_max_ge (raw_fitness oldest sig) l (raw_fitness oldest sig t)) as [A1 A2].
    destruct (foldl_min_le (raw_fitness oldest sig) l (raw_fitness oldest sig t)) as [B1 B2].
    unfold worst_fitness, best_fitness. apply elem_of_cons in Hs as [->|Hs]; [done|]. split; [by apply B2|by apply A2]. }
  apply Rmult_le_pos; [lra|]. apply Rlt_le, Rinv_0_lt_compat. apply (Rle_neq_lt 0); [lra|done|done].
Qed.

Lemma foldl_plus_nonneg {A} (f : A -> R) l : forall b, (0 <= b)%R -> (forall s, s ∈ l -> (0 <= f s)%R) ->
  (0 <= foldl (fun a s => a + f s)%R b l)%R.
Proof.
  induction l as [|s l IH]; intros b Hb Hl; cbn; [done|]. apply IH.
  - assert (0 <= f s)%R by (apply Hl; constructor). lra.
  - intros t Ht. apply Hl. by constructor.
Qed.

Lemma mean_fitness_nonneg oldest sig l :
  (0 <= mean_fitness oldest sig (worst_fitness oldest sig l) (best_fitness oldest sig l) l)%R.
Proof.
  unfold mean_fitness. case_decide as E; [lra|]. apply Rmult_le_pos.
  - apply foldl_plus_nonneg; [lra|]. intros s Hs. by apply norm_nonneg.
  - apply Rlt_le, Rinv_0_lt_compat, lt_0_INR. destruct l; [done|]. cbn. lia.
Qed.

(** ** Children *)

Lemma fine_extend ip op G G' x : extends G G' -> fine ip op G x -> fine ip op G' x.
Proof. intros He [Hw Hr]. split; [by eapply wf_extend|done]. Qed.

Lemma fine_extend_all ip op G G' l : extends G G' -> Forall (fine ip op G) l -> Forall (fine ip op G') l.
Proof. intros He Hl. eapply list.Forall_impl; [exact Hl|]. intros x. by apply fine_extend. Qed.

Section children.
  Context (c : settings) (ip op : nat).
  Context (Hip : 1 <= ip) (Hop : 1 <= op).

  Lemma make_child_ok rmax lk rip G x :
    possible_child rmax lk -> consistent ip op G -> fine ip op G x ->
    exists G' y, make_child c rmax lk rip G x = Some (G', y) /\ extends G G' /\ consistent ip op G' /\ fine ip op G' y.
  Proof using Hip Hop.
    intros (R1 & R2 & R3 & R4 & R5) HG Hx. unfold make_child.
    destruct (copy_individual_ok ip op G x Hx) as (y & -> & [Hy Hrip] & _). cbn [mbind option_bind].
    destruct (activate_many_ok ip op rmax (cl_act lk) (cl_coin lk) G (i_genome y) R1 HG Hy) as (r1 & g1 & -> & H1 & _).
    cbn [mbind option_bind snd].
    destruct (weights_ok ip op G g1 (cl_weights lk) HG H1) as (g & -> & H2 & _). cbn [mbind option_bind].
    destruct (add_ok ip op rmax (cl_add1 lk) (cl_add2 lk) (cl_w lk) G g R2 R3 Hip Hop HG H2) as (r2 & G2 & g2 & -> & HG2 & He2 & H3 & _).
    destruct (flip_ok ip op true rmax (cl_rem lk) G g R4 HG H2) as (r3 & g3 & -> & H4 & _).
    cbn [mbind option_bind fst snd].
    match goal with |- context [if cl_first lk then ?A else ?B] =>
      assert (Hs : exists G3 g4, (if cl_first lk then A else B) = Some (G3, g4) /\ extends G G3 /\ consistent ip op G3 /\ well_formed ip op G3 g4) end.
    { pose proof (extends_refl G).
      destruct (cl_first lk); [|destruct (cl_second lk)]; try case_decide; try (by eauto 10). }
    destruct Hs as (G3 & g4 & -> & He3 & HG3 & H5). cbn [mbind option_bind fst snd].
    destruct (cl_split lk).
    - destruct (split_ok 1%R ip op rmax (cl_srand lk) G3 g4 R5 Hip HG3 H5) as (r5 & G5 & g5 & -> & HG5 & He5 & H6 & _).
      cbn [mbind option_bind fst snd]. eexists G5, _. split; [done|]. split; [by eapply extends_trans|]. split; [done|]. by split.
    - cbn [mbind option_bind fst snd]. eexists G3, _. split; [done|]. split; [done|]. split; [done|]. by split.
  Qed.

  (** one round of the loop over the survivors *)
  Lemma round_ok lk rip ms T step z G gg :
    possible_gen lk -> consistent ip op G -> Forall (fine ip op G) ms -> Forall (fine ip op G) gg ->
    (1 <= step <= Z.of_nat (length ms))%Z -> (z < T)%Z -> (Z.of_nat (length gg) + (T - z) <= Z.of_nat (capacity c))%Z ->
    exists G' gg',
      for_loop (length ms) 0 (fun w s =>
               if decide (step <= Z.of_nat w \/ T <= z + Z.of_nat w)%Z then Some s
               else x ← rd ms w;
                    r ← make_child c (lk_rmax lk) (lk_child lk (length (snd s))) rip (fst s) x;
                    gg ← push c (snd s) (snd r);
                    Some (fst r, gg)) (G, gg) = Some (G', gg') /\
      extends G G' /\ consistent ip op G' /\ Forall (fine ip op G') gg' /\
      Z.of_nat (length gg') = (Z.of_nat (length gg) + Z.min step (T - z))%Z.
  Proof using Hip Hop.
    intros (_ & _ & Hlk) HG Hms Hgg Hstep Hz Hcap.
    pose (P := fun (w : nat) (s : globals * list individual) =>
      extends G (fst s) /\ consistent ip op (fst s) /\ Forall (fine ip op (fst s)) (snd s) /\
      Z.of_nat (length (snd s)) = (Z.of_nat (length gg) + Z.min (Z.of_nat w) (Z.min step (T - z)))%Z).
    match goal with |- context [for_loop ?n 0 ?b ?s] => destruct (for_loop_inv P b n 0 s) as ([G' gg'] & E & H1 & H2 & H3 & H4) end.
    - split; [apply extends_refl|]. split; [done|]. split; [done|]. cbn. lia.
    - intros w [G1 gg1] Hw (H1 & H2 & H3 & H4). cbn [fst snd] in *. case_decide as Hd.
      + exists (G1, gg1). split; [done|]. split; [done|]. split; [done|]. split; [done|]. cbn [snd]. rewrite H4. lia.
      + destruct (lookup_lt_is_Some_2 ms w) as [x Hx]; [lia|]. unfold rd. rewrite Hx. cbn [mbind option_bind].
        destruct (make_child_ok (lk_rmax lk) (lk_child lk (length gg1)) rip G1 x) as (G2 & y & -> & He & HG2 & Hy); [done|done| |].
        { apply (fine_extend _ _ G); [done|]. exact (Forall_lookup_1 _ _ _ _ Hms Hx). }
        cbn [mbind option_bind fst snd]. unfold push. rewrite decide_True by lia. cbn [mbind option_bind].
        eexists. split; [done|]. split; [by eapply extends_trans|]. split; [done|]. cbn [fst snd]. split.
        * apply Forall_app. split; [by eapply fine_extend_all|]. by apply list.Forall_singleton.
        * rewrite app_length. cbn. lia.
    - exists G', gg'. cbn [fst snd] in *. split; [done|]. split; [done|]. split; [done|]. split; [done|]. rewrite H4. lia.
  Qed.

  Lemma breed_ok lk rip ms T step : forall fuel z G gg,
    possible_gen lk -> consistent ip op G -> Forall (fine ip op G) ms -> Forall (fine ip op G) gg ->
    (1 <= step <= Z.of_nat (length ms))%Z -> (Z.max 0 (T - z) < Z.of_nat fuel)%Z ->
    (Z.of_nat (length gg) + (T - z) <= Z.of_nat (capacity c))%Z ->
    exists G' gg', breed fuel c lk rip ms T step z (G, gg) = Some (G', gg') /\
      extends G G' /\ consistent ip op G' /\ Forall (fine ip op G') gg' /\
      Z.of_nat (length gg') = (Z.of_nat (length gg) + Z.max 0 (T - z))%Z.
  Proof using Hip Hop.
    induction fuel as [|fuel IH]; intros z G gg Hlk HG Hms Hgg Hstep Hf Hcap.
    - exfalso. lia.
    - cbn [breed]. case_decide as Hd.
      + destruct (round_ok lk rip ms T step z G gg Hlk HG Hms Hgg Hstep Hd Hcap) as (G1 & gg1 & -> & He1 & HG1 & Hgg1 & L1).
        cbn [mbind option_bind].
        destruct (IH (z + step)%Z G1 gg1) as (G2 & gg2 & E & He2 & HG2 & Hgg2 & L2); try done.
        * by eapply fine_extend_all.
        * lia.
        * lia.
        * exists G2, gg2. split; [done|]. split; [by eapply extends_trans|]. split; [done|]. split; [done|]. lia.
      + exists G, gg. split; [done|]. split; [apply extends_refl|]. split; [done|]. split; [done|]. lia.
  Qed.
End children.
