From Coq Require Import Reals Lra Psatz.
From Verif Require Import NumLib NumLib2 NumLib3 BaseLemmas RealSum Deriv Grad Softmax_Props.
From Verif Require Import Duel_Model Duel_Spec Duel_Proofs.
Open Scope R_scope.

(** ** what the backward code computes *)
Lemma derivative_softmax_run s error output size :
  (size <= length s)%nat -> (size <= length error)%nat -> (size <= length output)%nat ->
  derivative_softmax output s error size =
    Some (imap (fun k x => if decide (k < size)%nat then x + el s k * (el error k - sumn size (fun i => el error i * el s i)) else x) output).
Proof.
  intros Hs He Ho. unfold derivative_softmax.
  rewrite (Pointwise_loop (length output) size 0 _ (fun j x => x + el s j * (el error j - sumn size (fun i => el error i * el s i))) ltac:(lia)); [| |done].
  - f_equal. apply imap_ext_lt. intros k x Hk _. rewrite Nat.sub_0_r. destruct (decide (k < size)%nat); [by rewrite decide_True by lia|by rewrite decide_False by lia].
  - intros j Hj. eapply Pointwise_ext.
    + apply (Adds_loop (length output) size _ (fun i k => if decide (k = j) then (if decide (i = j) then el s i * (1 - el s j) * el error i else - el s j * el s i * el error i) else 0)).
      intros i Hi. eapply Adds_body.
      * intros l Hl. rewrite !rd_el by lia. cbn [mbind option_bind]. instantiate (1 := fun l => addat l j (if decide (i = j) then el s i * (1 - el s j) * el error i else - el s j * el s i * el error i)).
        cbn beta. destruct (decide (i = j)); [done|]. f_equal. lra.
      * apply Adds_at. lia.
    + intros k x Hk. cbn beta. rewrite Nat.add_0_l. destruct (decide (k = j)) as [->|].
      * f_equal. pose proof (jacobian_row everything size (el s) (el error) j Hj eq_refl) as Hr. unfold active_sum, everything in Hr. exact Hr.
      * rewrite sumn_0; [lra|done].
Qed.

(** derivative of the loss with respect to the combined values: row i, atom k *)
Definition back (n : nat) (sm error : list R) (i k : nat) : R :=
  el sm (i * n + k) * (el error (i * n + k) - sumn n (fun k' => el error (i * n + k') * el sm (i * n + k'))).

Lemma value_error_run n actions sm error d ve :
  length sm = (actions * n)%nat -> length error = (actions * n)%nat -> length d = (actions * n)%nat -> length ve = n ->
  exists d' ve', value_error n actions sm error (d, ve) = Some (d', ve') /\ length d' = (actions * n)%nat /\ length ve' = n /\
    (forall i k, (i < actions)%nat -> (k < n)%nat -> el d' (i * n + k) = el d (i * n + k) + back n sm error i k) /\
    (forall k, (k < n)%nat -> el ve' k = el ve k + sumn actions (fun i => el d (i * n + k) + back n sm error i k)).
Proof.
  intros Hs He Hd Hv. unfold value_error.
  edestruct (for_loop_inv (fun i st => length (fst st) = (actions * n)%nat /\ length (snd st) = n /\
      (forall r k, (r < actions)%nat -> (k < n)%nat -> el (fst st) (r * n + k) = if decide (r < i)%nat then el d (r * n + k) + back n sm error r k else el d (r * n + k)) /\
      (forall k, (k < n)%nat -> el (snd st) k = el ve k + sumn i (fun r => el d (r * n + k) + back n sm error r k)))
    (fun i st => let '(d, ve) := st in
      d ← on_tail (i * n)%nat (fun t => derivative_softmax t (drop (i * n)%nat sm) (drop (i * n)%nat error) n) d;
      ve ← for_loop n 0 (fun j ve => x ← rd d (i * n + j)%nat; addat ve j x) ve;
      Some (d, ve)) actions 0 (d, ve)) as ([d' ve'] & E & H1 & H2 & H3 & H4).
  - cbn [fst snd]. split; [done|]. split; [done|]. split; intros; [by rewrite decide_False by lia|cbn; lra].
  - intros i [a v] Hi (L1 & L2 & C1 & C2). cbn [fst snd] in *. assert (Hin : (i * n + n <= actions * n)%nat) by nia.
    unfold on_tail. rewrite decide_True by lia. rewrite derivative_softmax_run by (rewrite drop_length; lia). cbn [mbind option_bind].
    set (a' := take (i * n) a ++ _).
    assert (Ht : length (take (i * n) a) = (i * n)%nat) by (rewrite take_length; lia).
    assert (La' : length a' = (actions * n)%nat) by (unfold a'; rewrite app_length, imap_length, drop_length, Ht; lia).
    assert (Ha1 : forall k, (k < n)%nat -> el a' (i * n + k) = el d (i * n + k) + back n sm error i k).
    { intros k Hk. unfold a'. rewrite el_app_r by lia. rewrite Ht. replace (i * n + k - i * n)%nat with k by lia.
      rewrite el_imap by (rewrite drop_length; lia). rewrite decide_True by done. rewrite !el_drop. unfold back. rewrite C1 by (done || lia). rewrite decide_False by lia.
      do 3 f_equal. apply sumn_ext. intros. by rewrite !el_drop. }
    assert (Ha2 : forall q, (q < i * n)%nat \/ (i * n + n <= q < actions * n)%nat -> el a' q = el a q).
    { intros q [Hq|Hq]; unfold a'; [rewrite el_app_l by lia; by apply el_take|]. rewrite el_app_r by lia. rewrite Ht.
      rewrite el_imap by (rewrite drop_length; lia). rewrite decide_False by lia. rewrite el_drop. f_equal. lia. }
    clearbody a'.
    rewrite (Pointwise_loop n n 0 _ (fun k x => x + el a' (i * n + k)) ltac:(lia)); [| |done].
    2: { intros k Hk l Hl. rewrite rd_el by lia. cbn [mbind option_bind]. by rewrite (Pointwise_addat n) by lia. }
    cbn [mbind option_bind]. eexists. split; [done|]. cbn [fst snd]. rewrite imap_length. split; [done|]. split; [done|]. split.
    + intros r k Hr Hk. destruct (decide (r = i)) as [->|].
      * rewrite decide_True by lia. by apply Ha1.
      * rewrite Ha2 by nia. rewrite C1 by done. destruct (decide (r < i)%nat); [by rewrite decide_True by lia|by rewrite decide_False by lia].
    + intros k Hk. rewrite el_imap by lia. rewrite decide_True by lia. rewrite Nat.sub_0_r. rewrite C2 by done. rewrite Ha1 by done. cbn [sumn]. lra.
  - rewrite E. cbn [fst snd] in *. rewrite Nat.add_0_l in H3, H4. exists d', ve'. split; [done|]. split; [done|]. split; [done|]. split; [|done].
    intros i k Hi Hk. rewrite H3 by done. by rewrite decide_True.
Qed.

(** assigned: only the last action's row of d survives *)
Lemma advantage_error_run n actions d ae : length d = (S actions * n)%nat -> length ae = (S actions * n)%nat ->
  exists ae', advantage_error n (S actions) d ae = Some ae' /\ length ae' = (S actions * n)%nat /\
    (forall i k, (i < S actions)%nat -> (k < n)%nat ->
       el ae' (i * n + k) = (if decide (i = actions) then INR (n - 1) / INR n else - 1 / INR n) * el d (actions * n + k)).
Proof.
  intros Hd Ha. unfold advantage_error.
  edestruct (for_loop_inv (fun i st => length st = (S actions * n)%nat /\
      (forall r k, (r < i)%nat -> (k < n)%nat -> el st (r * n + k) = (if decide (r = actions) then INR (n - 1) / INR n else - 1 / INR n) * el d (actions * n + k)))
     (fun i ae => for_loop (S actions) 0 (fun j ae => for_loop n 0 (fun k ae =>
        x ← rd d (j * n + k)%nat;
        if decide (i = j) then wr ae (i * n + k)%nat (INR (n - 1) / INR n * x)
        else wr ae (i * n + k)%nat (- 1 / INR n * x)) ae) ae) (S actions) 0 ae) as (ae' & E & H1 & H2).
  - split; [done|]. intros; lia.
  - intros i a Hi (L & C). assert (Hin : (i * n + n <= S actions * n)%nat) by nia.
    edestruct (for_loop_inv (fun j st => length st = (S actions * n)%nat /\ (forall q, (q < i * n)%nat -> el st q = el a q) /\
       ((0 < j)%nat -> forall k, (k < n)%nat -> el st (i * n + k) = (if decide (i = j - 1)%nat then INR (n - 1) / INR n else - 1 / INR n) * el d ((j - 1) * n + k)))
      (fun j ae => for_loop n 0 (fun k ae => x ← rd d (j * n + k)%nat;
        if decide (i = j) then wr ae (i * n + k)%nat (INR (n - 1) / INR n * x)
        else wr ae (i * n + k)%nat (- 1 / INR n * x)) ae) (S actions) 0 a) as (a' & E & L' & C1 & C2).
    + split; [done|]. split; [done|]. lia.
    + intros j l Hj (Ll & D1 & _).
      rewrite (Pointwise_loop (S actions * n) n (i * n) _ (fun k _ => (if decide (i = j) then INR (n - 1) / INR n else - 1 / INR n) * el d (j * n + k)) Hin); [| |done].
      2: { intros k Hk l' Hl'. rewrite rd_el by (rewrite Hd; apply flat_lt; lia). cbn [mbind option_bind].
           destruct (decide (i = j)); by rewrite (Pointwise_wr (S actions * n)) by lia. }
      eexists. split; [done|]. rewrite imap_length. split; [done|]. split.
      * intros q Hq. rewrite el_imap by nia. rewrite decide_False by lia. by apply D1.
      * intros _ k Hk. rewrite el_imap by lia. rewrite decide_True by lia. replace (i * n + k - i * n)%nat with k by lia. by replace (S j - 1)%nat with j by lia.
    + exists a'. split; [exact E|]. split; [done|]. intros r k Hr Hk. destruct (decide (r = i)) as [->|].
      * rewrite C2 by lia. by replace (0 + S actions - 1)%nat with actions by lia.
      * rewrite C1 by nia. apply C; lia.
  - exists ae'. split; [exact E|]. split; [done|]. intros i k Hi Hk. apply H2; lia.
Qed.

Lemma value_error_qr_run n actions error ve : length error = (actions * n)%nat -> length ve = n ->
  value_error_qr n actions error ve = Some (imap (fun k x => x + sumn actions (fun i => el error (i * n + k))) ve).
Proof.
  intros He Hv. unfold value_error_qr.
  apply (Adds_loop n actions _ (fun i k => el error (i * n + k))); [|done]. intros i Hi. eapply Adds_ext.
  - apply (Adds_loop n n _ (fun j k => if decide (k = j) then el error (i * n + j) else 0)). intros j Hj.
    apply (Adds_body n _ (fun l => addat l j (el error (i * n + j)))); [|by apply Adds_at].
    intros l _. by rewrite rd_el by (rewrite He; by apply flat_lt).
  - intros k Hk. cbn beta. rewrite (sumn_ext _ _ (fun j => if decide (j = k) then el error (i * n + j) else 0)).
    + by apply (sumn_delta n k (fun j => el error (i * n + j))).
    + intros j _. destruct (decide (k = j)) as [->|]; [by rewrite decide_True|by rewrite decide_False by congruence].
Qed.

Lemma advantage_error_qr_run n actions error ae : length error = (actions * n)%nat -> length ae = (actions * n)%nat ->
  exists ae', advantage_error_qr n actions error ae = Some ae' /\ length ae' = (actions * n)%nat /\
   (forall i k, (i < actions)%nat -> (k < n)%nat ->
     el ae' (i * n + k) = el ae (i * n + k) + (el error (i * n + k) - 1 / INR n * sumn actions (fun j => el error (j * n + k)))).
Proof.
  intros He Ha. unfold advantage_error_qr.
  set (D := fun i j k => if decide (i = j) then (1 - 1 / INR n) * el error (j * n + k) else - 1 / INR n * el error (j * n + k)).
  assert (H : Adds (actions * n) (for_loop actions 0 (fun i ae => for_loop actions 0 (fun j ae => for_loop n 0 (fun k ae =>
    x ← rd error (j * n + k)%nat;
    if decide (i = j) then addat ae (i * n + k)%nat ((1 - 1 / INR n) * x)
    else addat ae (i * n + k)%nat (- 1 / INR n * x)) ae) ae)) (fun q => sum3 actions actions n (fun i j k => if decide (q = i * n + k)%nat then D i j k else 0))).
  { apply (Adds_loop3 (actions * n) actions actions n). intros i j k Hi Hj Hk.
    apply (Adds_body _ _ (fun l => addat l (i * n + k)%nat (D i j k))); [|apply Adds_at; by apply flat_lt].
    intros l _. rewrite rd_el by (rewrite He; by apply flat_lt). cbn [mbind option_bind]. unfold D. by destruct (decide (i = j)). }
  eexists. split; [apply H; done|]. rewrite imap_length. split; [done|]. intros i k Hi Hk. rewrite el_imap by (rewrite Ha; by apply flat_lt). f_equal.
  unfold sum3. rewrite (sumn_single actions i); [|done|].
  - rewrite sum2_swap. unfold sum2. rewrite (sumn_single n k); [|done|].
    + rewrite (sumn_ext _ _ (fun j => - 1 / INR n * el error (j * n + k) + if decide (j = i) then el error (j * n + k) else 0)).
      * rewrite sumn_plus, sumn_scal_l. rewrite (sumn_delta actions i (fun j => el error (j * n + k))) by done. lra.
      * intros j Hj. rewrite (decide_True (P := (i * n + k = i * n + k)%nat)) by done. unfold D. destruct (decide (i = j)) as [->|]; [rewrite decide_True by done; lra|rewrite decide_False by congruence; lra].
    + intros k' Hk' Hne. apply sumn_0. intros. by rewrite decide_False by lia.
  - intros i' Hi' Hne. apply sum2_0. intros j k' Hj Hk'. rewrite decide_False; [done|]. intros Heq. apply Hne. nia.
Qed.

(** ** the true derivatives *)
Lemma prob_softmax n actions V A i k : (k < n)%nat ->
  prob n actions V A i k = softmax_of everything n (map (logit n actions V A i) (seq 0 n)) k.
Proof.
  intros Hk. unfold prob, softmax_of, active_sum, everything. rewrite el_map_seq by done. f_equal. apply sumn_ext. intros. by rewrite el_map_seq.
Qed.
(** the derivative of a row's contribution with respect to its combined value of atom k *)
Definition slope (n actions : nat) (e V A : list R) (i k : nat) : R :=
  prob n actions V A i k * (el e (i * n + k) - sumn n (fun k' => el e (i * n + k') * prob n actions V A i k')).

Lemma row_dlim n e x k c t0 : length x = n -> (k < n)%nat ->
  derivable_pt_lim (fun t => sumn n (fun j => el e j * softmax_of everything n (<[k := el x k + c * (t - t0)]> x) j)) t0
    (c * (softmax_of everything n x k * (el e k - sumn n (fun j => el e j * softmax_of everything n x j)))).
Proof.
  intros Hx Hk. pose proof (softmax_partial everything n x e k Hk ltac:(lia) eq_refl) as H. unfold has_partial in H.
  rewrite Rmult_comm. apply (dlim_comp (fun t => el x k + c * (t - t0)) (fun y => sumn n (fun j => el e j * softmax_of everything n (<[k := y]> x) j))).
  - apply (dlim_affine _ _ c (el x k - c * t0)). intros. lra.
  - replace (el x k + c * (t0 - t0)) with (el x k) by lra. exact H.
Qed.

Lemma moved_rows n actions e (rows : R -> nat -> nat -> R) V A k (c : nat -> R) t0 : (k < n)%nat ->
  (forall t i k', (i < actions)%nat -> (k' < n)%nat -> rows t i k' = logit n actions V A i k' + if decide (k' = k) then c i * (t - t0) else 0) ->
  derivable_pt_lim (fun t => sumn actions (fun i => sumn n (fun k' => el e (i * n + k') * (exp (rows t i k') / sumn n (fun k'' => exp (rows t i k'')))))) t0
    (sumn actions (fun i => c i * slope n actions e V A i k)).
Proof.
  intros Hk Hr. apply (dlim_sumn actions (fun i t => sumn n (fun k' => el e (i * n + k') * (exp (rows t i k') / sumn n (fun k'' => exp (rows t i k'')))))). intros i Hi.
  set (x := map (logit n actions V A i) (seq 0 n)). assert (Hx : length x = n) by (unfold x; by rewrite map_length, seq_length).
  pose proof (row_dlim n (drop (i * n) e) x k (c i) t0 Hx Hk) as H. eapply dlim_ext; [|eapply dlim_val; [|exact H]].
  - intros t. cbn beta. assert (Hel : forall k', (k' < n)%nat -> el (<[k := el x k + c i * (t - t0)]> x) k' = rows t i k').
    { intros k' Hk'. rewrite el_upd by lia. rewrite Hr by done. unfold x. rewrite !el_map_seq by done. destruct (decide (k' = k)) as [->|]; lra. }
    apply sumn_ext. intros k' Hk'. rewrite el_drop. f_equal. unfold softmax_of, active_sum, everything. rewrite Hel by done. f_equal. apply sumn_ext. intros. by rewrite Hel.
  - f_equal. unfold slope. rewrite prob_softmax by done. rewrite el_drop. do 2 f_equal. apply sumn_ext. intros k' Hk'. rewrite el_drop. by rewrite prob_softmax.
Qed.

Lemma logit_V n actions V A k t i k' : length V = n -> (k < n)%nat ->
  logit n actions (<[k := t]> V) A i k' = logit n actions V A i k' + if decide (k' = k) then 1 * (t - el V k) else 0.
Proof. intros HV Hk. unfold logit. rewrite el_upd by lia. destruct (decide (k' = k)) as [->|]; lra. Qed.
Lemma logit_A n actions V A r k t i k' : length A = (actions * n)%nat -> (r < actions)%nat -> (k < n)%nat -> (i < actions)%nat -> (k' < n)%nat ->
  logit n actions V (<[(r * n + k)%nat := t]> A) i k' =
  logit n actions V A i k' + if decide (k' = k) then ((if decide (i = r) then 1 else 0) - 1 / INR actions) * (t - el A (r * n + k)) else 0.
Proof.
  intros HA Hr Hk Hi Hk'. unfold logit, mean_advantage. assert (Hlt : (r * n + k < length A)%nat) by (rewrite HA; by apply flat_lt).
  assert (Hfl : forall j, (j < actions)%nat -> (j * n + k' = r * n + k)%nat <-> j = r /\ k' = k).
  { intros j Hj. split; [|intros [-> ->]; done]. intros Heq. assert (j = r) by nia. subst. split; [done|lia]. }
  assert (HS : sumn actions (fun j => el (<[(r * n + k)%nat := t]> A) (j * n + k')) =
    sumn actions (fun j => el A (j * n + k')) + if decide (k' = k) then t - el A (r * n + k) else 0).
  { rewrite (sumn_ext _ _ (fun j => el A (j * n + k') + if decide (j = r) then if decide (k' = k) then t - el A (r * n + k) else 0 else 0)).
    - rewrite sumn_plus. by rewrite (sumn_delta actions r (fun _ => if decide (k' = k) then _ else _)).
    - intros j Hj. rewrite el_upd by done. pose proof (Hfl j Hj) as Hf. destruct (decide (j * n + k' = r * n + k)%nat) as [He|Hn].
      + destruct (proj1 Hf He) as [-> ->]. rewrite !decide_True by done. lra.
      + destruct (decide (j = r)); [|lra]. rewrite decide_False; [lra|]. intros ->. apply Hn. by subst. }
  rewrite HS. rewrite el_upd by done. pose proof (Hfl i Hi) as Hf. destruct (decide (k' = k)) as [->|Hk2].
  - destruct (decide (i = r)) as [->|Hne].
    + rewrite decide_True by done. lra.
    + rewrite decide_False by (intros Heq; apply Hne; by apply Hf). lra.
  - rewrite decide_False by (intros Heq; apply Hk2; by apply Hf). lra.
Qed.

Lemma slope_V n actions e V A k : length V = n -> (k < n)%nat ->
  has_partial (fun V => through_probabilities n actions e V A) V k (sumn actions (fun i => slope n actions e V A i k)).
Proof.
  intros HV Hk. unfold has_partial, through_probabilities, prob.
  rewrite (sumn_ext _ _ (fun i => 1 * slope n actions e V A i k)) by (intros; lra).
  apply (moved_rows n actions e (fun t i k' => logit n actions (<[k:=t]> V) A i k') V A k (fun _ => 1)); [done|].
  intros. by apply logit_V.
Qed.
Lemma slope_A n actions e V A r k : length A = (actions * n)%nat -> (r < actions)%nat -> (k < n)%nat ->
  has_partial (fun A => through_probabilities n actions e V A) A (r * n + k)
    (slope n actions e V A r k - sumn actions (fun j => slope n actions e V A j k) / INR actions).
Proof.
  intros HA Hr Hk. unfold has_partial, through_probabilities, prob.
  eapply dlim_val; [|apply (moved_rows n actions e (fun t i k' => logit n actions V (<[(r * n + k)%nat:=t]> A) i k') V A k (fun i => (if decide (i = r) then 1 else 0) - 1 / INR actions)); [done|]; intros; by apply logit_A].
  rewrite (sumn_ext _ _ (fun i => (if decide (i = r) then slope n actions e V A i k else 0) + (- 1 / INR actions) * slope n actions e V A i k)).
  - rewrite sumn_plus, sumn_scal_l. rewrite (sumn_delta actions r (fun i => slope n actions e V A i k)) by done. lra.
  - intros i _. destruct (decide (i = r)); lra.
Qed.

Lemma logits_V n actions e V A k : length V = n -> (k < n)%nat ->
  has_partial (fun V => through_logits n actions e V A) V k (sumn actions (fun i => el e (i * n + k))).
Proof.
  intros HV Hk. unfold has_partial, through_logits.
  apply (dlim_affine _ _ _ (through_logits n actions e V A - el V k * sumn actions (fun i => el e (i * n + k)))). intros t.
  unfold through_logits. rewrite (sumn_ext _ _ (fun i => sumn n (fun k' => el e (i * n + k') * logit n actions V A i k') + (t - el V k) * el e (i * n + k))).
  - rewrite sumn_plus, sumn_scal_l. lra.
  - intros i Hi. rewrite (sumn_ext _ _ (fun k' => el e (i * n + k') * logit n actions V A i k' + if decide (k' = k) then (t - el V k) * el e (i * n + k') else 0)).
    + rewrite sumn_plus. by rewrite (sumn_delta n k (fun k' => (t - el V k) * el e (i * n + k'))).
    + intros k' Hk'. rewrite logit_V by done. destruct (decide (k' = k)); lra.
Qed.
Lemma logits_A n actions e V A r k : length A = (actions * n)%nat -> (r < actions)%nat -> (k < n)%nat ->
  has_partial (fun A => through_logits n actions e V A) A (r * n + k) (el e (r * n + k) - sumn actions (fun j => el e (j * n + k)) / INR actions).
Proof.
  intros HA Hr Hk. unfold has_partial, through_logits. set (d := el e (r * n + k) - _).
  apply (dlim_affine _ _ _ (through_logits n actions e V A - el A (r * n + k) * d)). intros t.
  unfold through_logits.
  rewrite (sumn_ext _ _ (fun i => sumn n (fun k' => el e (i * n + k') * logit n actions V A i k') + ((if decide (i = r) then (t - el A (r * n + k)) * el e (i * n + k) else 0) + - 1 / INR actions * (t - el A (r * n + k)) * el e (i * n + k)))).
  - rewrite !sumn_plus, sumn_scal_l. rewrite (sumn_delta actions r (fun i => (t - el A (r * n + k)) * el e (i * n + k))) by done. unfold d. lra.
  - intros i Hi. rewrite (sumn_ext _ _ (fun k' => el e (i * n + k') * logit n actions V A i k' + if decide (k' = k) then ((if decide (i = r) then 1 else 0) - 1 / INR actions) * (t - el A (r * n + k)) * el e (i * n + k') else 0)).
    + rewrite sumn_plus. rewrite (sumn_delta n k (fun k' => ((if decide (i = r) then 1 else 0) - 1 / INR actions) * (t - el A (r * n + k)) * el e (i * n + k'))) by done.
      destruct (decide (i = r)); lra.
    + intros k' Hk'. rewrite logit_A by done. destruct (decide (k' = k)); lra.
Qed.
