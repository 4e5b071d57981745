From Coquelicot Require Import Coquelicot.
From Verif Require Import NumLib Deriv Grad Shuffle_Model Shuffle_Spec Shuffle_Props Iq_Model Iq_Spec.
From Coq Require Import Reals Lia Lra.
Open Scope nat_scope.

(** ** the derivative *)
Definition iq_entry (n : nat) (cur act : vec) (alpha1 alpha2 gamma y : R) (i : nat) (x : R) : R :=
  ((if decide (0 < el act i)%R then -1 - 2 / (4 * alpha2 * ((el cur i - gamma * y) * (el cur i - gamma * y) * (el cur i - gamma * y))) else x)
   + exp (el cur i / alpha1) / (INR n * sumn n (λ k, exp (el cur k / alpha1))))%R.
Definition mean_value (alpha1 gamma : R) (n : nat) (nxt : vec) : R :=
  if decide (0 < gamma)%R then (alpha1 * ln (sumn n (λ i, exp (el nxt i / alpha1))) / INR n)%R else 0%R.

Lemma derivative_run cur nxt out act alpha1 alpha2 gamma n :
  n <= length cur -> n <= length nxt -> length out = n -> n <= length act ->
  derivative_inverse_q cur nxt out act alpha1 alpha2 gamma n = Some (imap (iq_entry n cur act alpha1 alpha2 gamma (mean_value alpha1 gamma n nxt)) out).
Proof.
  intros Hc Hn Ho Ha. unfold derivative_inverse_q.
  assert (Hy : (if decide (0 < gamma)%R then
         s ← sum_loop n (λ i, x ← rd nxt i; Some (exp (x / alpha1))) 0%R;
         Some (alpha1 * ln s / INR n)%R
       else Some 0%R) = Some (mean_value alpha1 gamma n nxt)).
  { unfold mean_value. destruct (decide (0 < gamma)%R); [|done].
    rewrite (for_loop_sum n _ (λ i, exp (el nxt i / alpha1))) by (intros; rewrite rd_el by lia; done).
    cbn [mbind option_bind]. by rewrite Rplus_0_l. }
  rewrite Hy. cbn [mbind option_bind].
  rewrite (for_loop_sum n _ (λ i, exp (el cur i / alpha1))) by (intros; rewrite rd_el by lia; done).
  cbn [mbind option_bind]. rewrite Rplus_0_l.
  set (y := mean_value alpha1 gamma n nxt). set (S := sumn n _).
  pose proof (Pointwise_loop (length out) n 0 (λ i out,
    a ← rd act i; q ← rd cur i; o ← rd out i;
    let o := if decide (0 < a)%R then let temp := (q - gamma * y)%R in (-1 - 2 / ((4 * alpha2) * (temp * temp * temp)))%R else o in
    wr out i (o + exp (q / alpha1) / (INR n * S))%R) (iq_entry n cur act alpha1 alpha2 gamma y) ltac:(lia)) as H.
  rewrite H; [|intros i Hi l Hl|done].
  - f_equal. apply imap_ext_lt. intros k x Hk _. rewrite decide_True by lia. by rewrite Nat.sub_0_r.
  - rewrite !rd_el by lia. cbn [mbind option_bind].
    pose proof (Pointwise_wr (length out) i (iq_entry n cur act alpha1 alpha2 gamma y i (el l i)) ltac:(lia) l Hl) as W.
    transitivity (wr l i (iq_entry n cur act alpha1 alpha2 gamma y i (el l i))); [done|].
    rewrite W. f_equal. apply imap_ext_lt. intros k x Hk Hx. cbn. destruct (decide (k = i)) as [->|]; [|done].
    by rewrite (el_lookup _ _ _ Hx).
Qed.

Lemma one_hot_length n a : length (one_hot n a) = n.
Proof. unfold one_hot. by rewrite fmap_length, seq_length. Qed.
Lemma el_one_hot n a i : i < n -> el (one_hot n a) i = if decide (Z.of_nat i = a) then 1%R else 0%R.
Proof. intros Hi. unfold one_hot. change (@fmap list _ nat R) with (map (A := nat) (B := R)). by rewrite el_map_seq. Qed.

Local Open Scope R_scope.
Lemma soft_value_partial alpha1 q k : alpha1 <> 0 -> (k < length q)%nat ->
  has_partial (soft_value alpha1) q k (exp (el q k / alpha1) / sumn (length q) (λ i, exp (el q i / alpha1))).
Proof.
  intros Ha Hk. unfold has_partial, soft_value.
  eapply dlim_ext. { intros t. rewrite insert_length. reflexivity. }
  set (n := length q) in *. set (S := sumn n (λ i, exp (el q i / alpha1))).
  assert (HS : 0 < S). { apply sumn_pos; [lia|]. intros; apply exp_pos. }
  assert (D : derivable_pt_lim (λ t, sumn n (λ i, exp (el (<[k:=t]> q) i / alpha1))) (el q k) (exp (el q k / alpha1) / alpha1)).
  { eapply dlim_val; [|apply (dlim_sumn n (λ i t, exp (el (<[k:=t]> q) i / alpha1)) (el q k) (λ i, if decide (i = k) then exp (el q k / alpha1) / alpha1 else 0))].
    - apply (sumn_delta n k (λ i, exp (el q k / alpha1) / alpha1)). done.
    - intros i Hi. destruct (decide (i = k)) as [->|Hne].
      + eapply dlim_ext. { intros t. by rewrite el_upd_eq. } dlim; [done|]. unfold Rdiv. ring.
      + eapply dlim_ext. { intros t. by rewrite el_upd_ne. } apply dlim_const. }
  assert (D2 : derivable_pt_lim ln (sumn n (λ i, exp (el (<[k:=el q k]> q) i / alpha1))) (/ S)).
  { rewrite upd_self. apply derivable_pt_lim_ln. exact HS. }
  pose proof (dlim_scal alpha1 _ _ _ (dlim_comp _ ln _ _ _ D D2)) as D3. cbn beta in D3.
  eapply dlim_val; [|exact D3]. unfold Rdiv. field. split; lra.
Qed.

Lemma iq_loss_partial scale alpha1 alpha2 gamma v a q k :
  alpha1 <> 0 -> alpha2 <> 0 -> (k < length q)%nat -> (a < length q)%nat -> el q a - gamma * v <> 0 ->
  has_partial (iq_loss scale alpha1 alpha2 gamma v a) q k
    ((if decide (k = a) then -1 - 2 / (4 * alpha2 * ((el q a - gamma * v) * (el q a - gamma * v) * (el q a - gamma * v))) else 0)
     + scale * (exp (el q k / alpha1) / sumn (length q) (λ i, exp (el q i / alpha1)))).
Proof.
  intros Ha1 Ha2 Hk Ha Hne. unfold has_partial, iq_loss.
  pose proof (soft_value_partial alpha1 q k Ha1 Hk) as DS. unfold has_partial in DS.
  set (d := exp (el q k / alpha1) / _) in *.
  destruct (decide (k = a)) as [->|Hka].
  - eapply dlim_ext. { intros t. rewrite el_upd_eq by done. 
      instantiate (1 := λ t, (- (t - gamma * v) + / (4 * alpha2 * ((t - gamma * v) * (t - gamma * v)))) + soft_value alpha1 (<[a:=t]> q) * scale). cbn. lra. }
    eapply dlim_plus.
    + dlim; [repeat split; try done|].
      * intros E. apply Rmult_integral in E as [E|E]; [lra|]. apply Rmult_integral in E as [E|E]; lra.
      * field. split; [|done]. lra.
    + eapply dlim_ext. { intros t. apply Rmult_comm. } apply dlim_scal. exact DS.
  - eapply dlim_ext. { intros t. rewrite (el_upd_ne q k t a) by congruence.
      instantiate (1 := λ t, (- (el q a - gamma * v) + / (4 * alpha2 * ((el q a - gamma * v) * (el q a - gamma * v)))) + soft_value alpha1 (<[k:=t]> q) * scale). cbn. lra. }
    eapply dlim_plus; [apply dlim_const|].
    eapply dlim_ext. { intros t. apply Rmult_comm. } apply dlim_scal. exact DS.
Qed.
Local Close Scope R_scope.

(** ** the loops *)
Lemma rd_lookup {A} (l : list A) i x : l !! i = Some x -> rd l i = Some x.
Proof. done. Qed.
Lemma each_app {A} (f : nat -> A -> option A) l k a : each f (l ++ k) a = (a' ← each f l a; each f k a').
Proof. revert a. induction l as [|z l IH]; intros a; [done|]. cbn. destruct (f z a); [apply IH|done]. Qed.

Lemma group_loop_each {A} (body : nat -> nat -> A -> option A) single T hi : 1 <= T ->
  (∀ k m a, k + m <= hi -> 1 <= m <= T -> body k m a = each single (seq k m) a) ->
  ∀ fuel k a, hi - k <= fuel -> group_loop fuel T hi body k a = each single (seq k (hi - k)) a.
Proof.
  intros HT Hb. induction fuel as [|fuel IH]; intros k a Hf.
  - cbn. rewrite decide_False by lia. by replace (hi - k) with 0 by lia.
  - cbn [group_loop]. destruct (decide (k < hi)) as [Hk|Hk].
    + set (m := T `min` (hi - k)). assert (Hm : 1 <= m <= hi - k /\ m <= T) by lia. rewrite Hb by lia.
      replace (hi - k) with (m + (hi - (k + m))) by lia. rewrite seq_app, each_app.
      destruct (each single (seq k m) a) as [a'|]; cbn [mbind option_bind]; [|done]. rewrite IH by lia. done.
    + by replace (hi - k) with 0 by lia.
Qed.

Section proofs.
  Context {P G O : Type} (g0 : G) (gadd : G -> G -> G).
  Context (fwd : P -> vec -> vec) (bwd : P -> vec -> vec -> G) (clip : P -> G -> G) (upd : O -> P -> G -> P) (next : O -> O).
  Context (Hu : ∀ g, gadd g0 g = g).

  Lemma gather_scatter q p index j zs nq :
    (inputs ← gather q index zs; scatter q index j zs (fwd p <$> inputs) nq) = each (next_one fwd q p index j) zs nq.
  Proof.
    revert nq. induction zs as [|z zs IH]; intros nq; [done|]. cbn [gather scatter each].
    change (next_one fwd q p index j z nq) with (idx ← rd index z; h ← has_next q idx; if (h : bool) then s ← rd (states q) (idx + 1); wr nq (z - j) (fwd p s) else Some nq).
    destruct (rd index z) as [idx|]; cbn [mbind option_bind]; [|done].
    destruct (has_next q idx) as [[|]|]; cbn [mbind option_bind]; [| |done].
    - destruct (rd (states q) (idx + 1)) as [s|]; cbn [mbind option_bind]; [|done].
      destruct (wr nq (z - j) (fwd p s)) as [nq'|] eqn:Hw; cbn [mbind option_bind].
      + rewrite <- IH. destruct (gather q index zs) as [r|]; cbn [mbind option_bind]; [|done]. rewrite fmap_cons, Hw. done.
      + destruct (gather q index zs) as [r|]; cbn [mbind option_bind]; [|done]. rewrite fmap_cons, Hw. done.
    - apply IH.
  Qed.

  Definition train_one (q : iq) (p : P) (index : list nat) (nq : list vec) (j k : nat) (g : G) : option G :=
    x ← one_grad fwd bwd q p index nq j k; Some (gadd g x).
  Lemma train_threads q p index nq j zs g :
    (xs ← mapM (λ z, x ← one_grad fwd bwd q p index nq j z; Some (gadd g0 x)) zs; Some (fold_left gadd xs g)) = each (train_one q p index nq j) zs g.
  Proof using Hu.
    revert g. induction zs as [|z zs IH]; intros g; [done|]. cbn.
    change (train_one q p index nq j z g) with (x ← one_grad fwd bwd q p index nq j z; Some (gadd g x)).
    destruct (one_grad fwd bwd q p index nq j z) as [x|]; cbn [mbind option_bind]; [|done]. rewrite <- IH.
    destruct (mapM _ zs) as [xs|]; cbn [mbind option_bind]; [|done]. cbn. by rewrite Hu.
  Qed.

  Lemma next_loop q p index j hi nq : 1 <= threads q -> hi - j <= size q ->
    group_loop (size q) (threads q) hi (next_group fwd q p index j) j nq = each (next_one fwd q p index j) (seq j (hi - j)) nq.
  Proof.
    intros HT Hs. apply group_loop_each; [done| |done]. intros k m a Hk Hm. unfold next_group.
    destruct (decide (threads q = 1)) as [E|E].
    - replace m with 1 by lia. cbn. by destruct (next_one _ _ _ _ _ _ _).
    - apply gather_scatter.
  Qed.
  Lemma train_loop q p index j hi nq g : 1 <= threads q -> hi - j <= size q ->
    group_loop (size q) (threads q) hi (train_group g0 gadd fwd bwd q p index nq j) j g = each (train_one q p index nq j) (seq j (hi - j)) g.
  Proof using Hu.
    intros HT Hs. apply group_loop_each; [done| |done]. intros k m a Hk Hm. unfold train_group.
    destruct (decide (threads q = 1)) as [E|E].
    - replace m with 1 by lia. cbn. unfold train_one. by destruct (one_grad _ _ _ _ _ _ _ _).
    - apply train_threads.
  Qed.

  (** the result does not depend on the number of threads, whatever the data are *)
  Lemma batch_threads q n index b st : 1 <= threads q -> 1 <= n ->
    train_batch g0 gadd fwd bwd clip upd next (set_threads n q) index b st = train_batch g0 gadd fwd bwd clip upd next q index b st.
  Proof using Hu.
    intros HT Hn. unfold train_batch. destruct st as [[p g] o]. cbn [batch_size size outdim set_threads].
    assert (Hb : ∀ a c, a `min` (c + batch_size q) - c <= a) by lia.
    rewrite next_loop by (apply Hb || done). rewrite (next_loop (set_threads n q)) by (apply Hb || done).
    change (each (next_one fwd (set_threads n q) p index (b * batch_size q))) with (each (next_one fwd q p index (b * batch_size q))).
    destruct (each (next_one fwd q p index _) _ _) as [nq|]; cbn [mbind option_bind]; [|done].
    rewrite train_loop by (apply Hb || done). rewrite (train_loop (set_threads n q)) by (apply Hb || done).
    done.
  Qed.
  Lemma each_ext {A} (f h : nat -> A -> option A) l a : (∀ z a, f z a = h z a) -> each f l a = each h l a.
  Proof. intros E. revert a. induction l as [|z l IH]; intros a; [done|]. cbn. rewrite E. destruct (h z a); [apply IH|done]. Qed.
  Lemma epochs_threads rmax rand q n i k index st : 1 <= threads q -> 1 <= n ->
    epochs g0 gadd fwd bwd clip upd next rmax rand (set_threads n q) i k index st = epochs g0 gadd fwd bwd clip upd next rmax rand q i k index st.
  Proof using Hu.
    intros HT Hn. revert i index st. induction k as [|k IH]; intros i index st; [done|]. cbn [epochs].
    change (size (set_threads n q)) with (size q). change (batch_size (set_threads n q)) with (batch_size q).
    destruct (shuffle_matrix rmax (rand i) index (size q)) as [index'|]; cbn [mbind option_bind]; [|done].
    rewrite (each_ext _ (train_batch g0 gadd fwd bwd clip upd next q index')) by (intros; by apply batch_threads).
    destruct (each (train_batch _ _ _ _ _ _ _ q index') _ st) as [st'|]; cbn [mbind option_bind]; [|done].
    rewrite IH. done.
  Qed.

  (** one batch *)
  Lemma has_next_ok q i : length (done q) = size q -> i < size q -> has_next q i = Some (continues q i).
  Proof.
    intros Hd Hi. unfold has_next, continues. destruct (lookup_lt_is_Some_2 (done q) i ltac:(lia)) as [d Hl].
    rewrite (rd_lookup _ _ _ Hl). cbn [mbind option_bind]. by rewrite (nth_lookup_Some _ _ true _ Hl).
  Qed.
  Lemma rd_nth {A} (l : list A) i d : i < length l -> rd l i = Some (nth i l d).
  Proof. intros Hi. destruct (lookup_lt_is_Some_2 l i Hi) as [x Hl]. rewrite (rd_lookup _ _ _ Hl). by rewrite (nth_lookup_Some _ _ d _ Hl). Qed.

  Lemma next_each q p index j n k nq :
    data_ok q -> length index = size q -> Forall (λ i, i < size q) index -> j <= k -> k + n <= size q -> k - j + n <= length nq ->
    (∀ i, k - j <= i < k - j + n -> nq !! i = Some (replicate (outdim q) 0%R)) ->
    ∃ nq', each (next_one fwd q p index j) (seq k n) nq = Some nq' /\ length nq' = length nq /\
      (∀ i, i < k - j \/ k - j + n <= i -> nq' !! i = nq !! i) /\
      (∀ i, k - j <= i < k - j + n -> nq' !! i = Some (next_values fwd q p (nth (j + i) index 0))).
  Proof.
    intros (Ls & La & Ld & Hb & HT & Hdiv) Li Hi. revert k nq. induction n as [|n IH]; intros k nq Hj Hk Hl Hz.
    - exists nq. cbn. repeat split; try done. intros; lia.
    - cbn [seq each]. set (i0 := nth k index 0).
      assert (Hi0 : i0 < size q). { rewrite list.Forall_forall in Hi. apply Hi. apply elem_of_list_lookup. exists k. unfold i0. rewrite <- (rd_nth index k 0) by lia. done. }
      assert (Hone : ∃ nq1, next_one fwd q p index j k nq = Some nq1 /\ nq1 = <[k - j := next_values fwd q p i0]> nq).
      { unfold next_one. rewrite (rd_nth index k 0) by lia. fold i0. cbn [mbind option_bind]. rewrite has_next_ok by done. cbn [mbind option_bind].
        unfold next_values. destruct (continues q i0) eqn:Hc.
        - assert (i0 + 1 < size q) by (unfold continues in Hc; apply andb_prop in Hc as [_ Hc]; apply bool_decide_eq_true in Hc; lia).
          rewrite (rd_nth (states q) (i0 + 1) []) by lia. cbn [mbind option_bind].
          rewrite Nat.add_1_r. eexists. split; [apply wr_Some; lia|done].
        - exists nq. split; [done|]. symmetry. apply list_insert_id. apply Hz. lia. }
      destruct Hone as (nq1 & -> & ->). cbn [mbind option_bind].
      destruct (IH (S k) (<[k - j := next_values fwd q p i0]> nq)) as (nq' & E & L' & Hout & Hin); [lia|lia|rewrite insert_length; lia| |].
      { intros i Hi'. rewrite list_lookup_insert_ne by lia. apply Hz. lia. }
      exists nq'. rewrite insert_length in L'. split; [done|]. split; [done|]. split.
      + intros i Hi'. rewrite Hout by lia. rewrite list_lookup_insert_ne by lia. done.
      + intros i Hi'. destruct (decide (i = k - j)) as [->|Hne].
        * rewrite Hout by lia. rewrite list_lookup_insert by lia. unfold i0. by replace (j + (k - j)) with k by lia.
        * apply Hin. lia.
  Qed.

  Lemma train_each q p index j n k nq g :
    data_ok q -> (∀ p x, length (fwd p x) = outdim q) -> length index = size q -> Forall (λ i, i < size q) index -> j <= k -> k + n <= size q ->
    (∀ i, k - j <= i < k - j + n -> nq !! i = Some (next_values fwd q p (nth (j + i) index 0))) ->
    each (train_one q p index nq j) (seq k n) g = Some (batch_grad gadd fwd bwd q p (take n (drop k index)) g).
  Proof.
    intros (Ls & La & Ld & Hb & HT & Hdiv) Lf Li Hi. revert k g. induction n as [|n IH]; intros k g Hj Hk Hq; [done|].
    cbn [seq each]. set (i0 := nth k index 0).
    assert (Hlk : index !! k = Some i0). { unfold i0. rewrite <- (rd_nth index k 0) by lia. done. }
    assert (Hi0 : i0 < size q). { rewrite list.Forall_forall in Hi. apply Hi. apply elem_of_list_lookup. by exists k. }
    assert (Hone : train_one q p index nq j k g = Some (gadd g (transition_grad fwd bwd q p i0))).
    { unfold train_one, one_grad. rewrite (rd_lookup _ _ _ Hlk). cbn [mbind option_bind].
      rewrite (rd_nth (actions q) i0 0%Z) by lia. cbn [mbind option_bind]. rewrite has_next_ok by done. cbn [mbind option_bind].
      rewrite (rd_nth (states q) i0 []) by lia. cbn [mbind option_bind].
      assert (Hn := Hq (k - j) ltac:(lia)). replace (j + (k - j)) with k in Hn by lia. fold i0 in Hn. rewrite (rd_lookup _ _ _ Hn). cbn [mbind option_bind].
      assert (Ln : length (next_values fwd q p i0) = outdim q). { unfold next_values. destruct (continues q i0); [apply Lf|apply replicate_length]. }
      unfold transition_grad. rewrite derivative_run; [done|rewrite Lf; lia|lia|apply replicate_length|rewrite one_hot_length; lia]. }
    rewrite Hone. cbn [mbind option_bind]. rewrite IH; [|lia|lia|].
    - rewrite (drop_S _ _ _ Hlk). done.
    - intros i Hi'. apply Hq. lia.
  Qed.

  Lemma batch_ok q index b st : data_ok q -> (∀ p x, length (fwd p x) = outdim q) -> length index = size q -> Forall (λ i, i < size q) index ->
    b < size q `div` batch_size q ->
    train_batch g0 gadd fwd bwd clip upd next q index b st = Some (batch_step gadd fwd bwd clip upd next q (take (batch_size q) (drop (b * batch_size q) index)) st).
  Proof using Hu.
    intros Hd Lf Li Hi Hb. pose proof Hd as (Ls & La & Ld & Hbs & HT & Hdiv).
    destruct st as [[p g] o]. unfold train_batch, batch_step. set (j := b * batch_size q).
    assert (Hj : j + batch_size q <= size q). { unfold j. nia. }
    rewrite next_loop by lia. replace (size q `min` (j + batch_size q) - j) with (batch_size q) by lia.
    destruct (next_each q p index j (batch_size q) j (replicate (batch_size q) (replicate (outdim q) 0%R)) Hd Li Hi) as (nq & E & _ & _ & Hq); [lia|lia|rewrite replicate_length; lia| |].
    { intros i Hi'. apply lookup_replicate_2. lia. }
    rewrite E. cbn [mbind option_bind]. rewrite train_loop by lia. replace (size q `min` (j + batch_size q) - j) with (batch_size q) by lia.
    rewrite train_each; [done|done|done|done|done|lia|lia|].
    intros i Hi'. apply Hq. lia.
  Qed.

  Lemma each_batches q index bs st : data_ok q -> (∀ p x, length (fwd p x) = outdim q) -> length index = size q -> Forall (λ i, i < size q) index ->
    Forall (λ b, b < size q `div` batch_size q) bs ->
    each (train_batch g0 gadd fwd bwd clip upd next q index) bs st =
      Some (fold_left (λ st l, batch_step gadd fwd bwd clip upd next q l st) ((λ b, take (batch_size q) (drop (b * batch_size q) index)) <$> bs) st).
  Proof using Hu.
    intros Hd Lf Li Hi. revert st. induction bs as [|b bs IH]; intros st Hbs; [done|]. apply list.Forall_cons in Hbs as [Hb Hbs].
    cbn [each]. rewrite batch_ok by done. cbn [mbind option_bind]. rewrite IH by done. done.
  Qed.

  Lemma epochs_ok rmax rand q n i index st : data_ok q -> (∀ p x, length (fwd p x) = outdim q) -> (∀ i, rand_ok rmax (rand i)) -> index ≡ₚ seq 0 (size q) ->
    ∃ orders, length orders = n /\ Forall (λ o, o ≡ₚ seq 0 (size q)) orders /\
      epochs g0 gadd fwd bwd clip upd next rmax rand q i n index st = Some (run gadd fwd bwd clip upd next q i orders st).
  Proof using Hu.
    intros Hd Lf Hr. revert i index st. induction n as [|n IH]; intros i index st Hp; [by exists []|].
    assert (Li : length index = size q) by (rewrite Hp; apply seq_length).
    destruct (C01_shuffle_permutes nat rmax (rand i) index (size q) (Hr i) ltac:(lia)) as (index' & E & Hp' & Hdr).
    assert (Hpp : index' ≡ₚ seq 0 (size q)).
    { rewrite <- Hp, <- (take_drop (size q) index'), Hdr, Hp'. by rewrite take_drop. }
    assert (Li' : length index' = size q) by (rewrite Hpp; apply seq_length).
    destruct (IH (S i) index' (epoch_step gadd fwd bwd clip upd next q index' st) Hpp) as (orders & Lo & Ho & Eo).
    exists (index' :: orders). split; [cbn; by rewrite Lo|]. split; [by constructor|].
    cbn [epochs]. rewrite E. cbn [mbind option_bind]. rewrite each_batches; try done.
    - cbn [mbind option_bind]. fold (batches q index'). fold (epoch_step gadd fwd bwd clip upd next q index' st). rewrite Eo. done.
    - apply list.Forall_forall. intros x Hx. rewrite Hpp in Hx. apply elem_of_seq in Hx. lia.
    - apply list.Forall_forall. intros x Hx. apply elem_of_seq in Hx. lia.
  Qed.
End proofs.

Lemma concat_batches (q : iq) order : data_ok q -> length order = size q -> concat (batches q order) = order.
Proof.
  intros (_ & _ & _ & Hb & _ & Hd) Hl. unfold batches. set (bs := batch_size q) in *. set (nb := size q `div` bs) in *.
  assert (Hgen : ∀ n, concat ((λ b, take bs (drop (b * bs) order)) <$> seq 0 n) = take (n * bs) order).
  { induction n as [|n IH]; [done|]. rewrite seq_S, fmap_app, concat_app, IH. cbn. rewrite app_nil_r.
    replace (bs + n * bs) with (n * bs + bs) by lia. apply take_take_drop. }
  rewrite Hgen. apply take_ge. lia.
Qed.
