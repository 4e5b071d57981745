From Coq Require Import Reals Lra Psatz.
From Verif Require Import NumLib NumLib2 NumLib3 BaseLemmas RealSum Grad Softmax_Props.
From Verif Require Import Duel_Model Duel_Spec.
Open Scope R_scope.

Lemma el_drop (l : list R) (off k : nat) : el (drop off l) k = el l (off + k).
Proof. unfold el. rewrite !nth_lookup. by rewrite lookup_drop. Qed.
Lemma el_app_r (a c : list R) (q : nat) : (length a <= q)%nat -> el (a ++ c) q = el c (q - length a).
Proof. intros. unfold el. by rewrite app_nth2. Qed.
Lemma el_app_l (a c : list R) (q : nat) : (q < length a)%nat -> el (a ++ c) q = el a q.
Proof. intros. unfold el. by rewrite app_nth1. Qed.
Lemma el_take (l : list R) (off k : nat) : (k < off)%nat -> el (take off l) k = el l k.
Proof. intros. unfold el. rewrite !nth_lookup. by rewrite lookup_take. Qed.

Lemma flat_lt (a n i k : nat) : (i < a)%nat -> (k < n)%nat -> (i * n + k < a * n)%nat.
Proof. intros. nia. Qed.

(** ** forward *)
Lemma action_mean_run n actions A mean : length A = (actions * n)%nat -> length mean = n ->
  action_mean n actions A mean = Some (imap (fun k x => (x - sumn actions (fun j => el A (j * n + k))) * (1 / INR actions)) mean).
Proof.
  intros HA Hm. unfold action_mean.
  rewrite (Pointwise_loop n n 0 _ (fun i x => (x - sumn actions (fun j => el A (j * n + i))) * (1 / INR actions)) ltac:(lia)); [|  |done].
  - f_equal. apply imap_ext_lt. intros k x Hk _. rewrite decide_True by lia. by rewrite Nat.sub_0_r.
  - intros i Hi l Hl.
    assert (HS : for_loop actions 0 (fun j m => a ← rd A (j * n + i)%nat; addat m i (- a)) l =
       Some (imap (fun k x => x + sumn actions (fun j => if decide (k = i) then - el A (j * n + i) else 0)) l)).
    { apply (Adds_loop n actions _ (fun j k => if decide (k = i) then - el A (j * n + i) else 0)); [|done]. intros j Hj.
      apply (Adds_body n _ (fun m => addat m i (- el A (j * n + i)))); [|by apply Adds_at].
      intros m _. rewrite rd_el by (rewrite HA; by apply flat_lt). done. }
    rewrite HS. cbn [mbind option_bind]. rewrite rd_el by (rewrite imap_length; lia). cbn [mbind option_bind].
    rewrite el_imap by lia. rewrite wr_Some by (rewrite imap_length; lia). f_equal. apply list_eq. intros k.
    rewrite list_lookup_imap. destruct (decide (k = i)) as [->|Hne].
    + rewrite list_lookup_insert by (rewrite imap_length; lia). rewrite lookup_el by lia. cbn. rewrite decide_True by lia.
      f_equal. f_equal. rewrite (sumn_ext _ _ (fun j => -1 * el A (j * n + i))); [rewrite sumn_scal_l; lra|].
      intros. rewrite decide_True by done. lra.
    + rewrite list_lookup_insert_ne by done. rewrite list_lookup_imap. destruct (l !! k) as [x|]; [|done]. cbn.
      rewrite (decide_False (P := k = i)) by done. f_equal. rewrite sumn_0; [lra|]. intros. by rewrite decide_False.
Qed.

Lemma add_row_run n actions i A V mean add : (i < actions)%nat -> length A = (actions * n)%nat -> length V = n -> length mean = n -> length add = (actions * n)%nat ->
  add_row n i A V mean add = Some (imap (fun q x => if decide (i * n <= q < i * n + n)%nat then el A q + el V (q - i * n) + el mean (q - i * n) else x) add).
Proof.
  intros Hi HA HV Hm Ha. unfold add_row. assert (Hin : (i * n + n <= actions * n)%nat) by nia.
  rewrite (Pointwise_loop (actions * n) n (i * n) _ (fun k _ => el A (i * n + k)) Hin); [| |done].
  2: { intros k Hk l Hl. rewrite rd_el by lia. cbn [mbind option_bind]. by rewrite (Pointwise_wr (actions * n)) by lia. }
  cbn [mbind option_bind].
  rewrite (Pointwise_loop (actions * n) n (i * n) _ (fun k x => x + el V k) Hin); [| |by rewrite imap_length].
  2: { intros k Hk l Hl. rewrite rd_el by lia. cbn [mbind option_bind]. by rewrite (Pointwise_addat (actions * n)) by lia. }
  cbn [mbind option_bind].
  rewrite (Pointwise_loop (actions * n) n (i * n) _ (fun k x => x + el mean k) Hin); [| |by rewrite !imap_length].
  2: { intros k Hk l Hl. rewrite rd_el by lia. cbn [mbind option_bind]. by rewrite (Pointwise_addat (actions * n)) by lia. }
  rewrite !imap_imap. f_equal. apply imap_ext_lt. intros q x Hq _. cbn. destruct (decide _); [|done]. by replace (i * n + (q - i * n))%nat with q by lia.
Qed.

Lemma softmax_tail off n add sm : (off + n <= length add)%nat -> (off + n <= length sm)%nat ->
  exists sm', on_tail off (fun t => softmax (drop off add) t n) sm = Some sm' /\ length sm' = length sm /\
    (forall k, (k < n)%nat -> el sm' (off + k) = exp (el add (off + k)) / sumn n (fun k' => exp (el add (off + k')))) /\
    (forall q, (q < off)%nat \/ (off + n <= q)%nat -> el sm' q = el sm q).
Proof.
  intros Ha Hs. unfold on_tail. rewrite decide_True by lia. rewrite softmax_run by (rewrite drop_length; lia). cbn [mbind option_bind].
  eexists. split; [done|]. assert (Ht : length (take off sm) = off) by (rewrite take_length; lia). split; [|split].
  - rewrite app_length, imap_length, drop_length, Ht. lia.
  - intros k Hk. rewrite el_app_r by lia. rewrite Ht. replace (off + k - off)%nat with k by lia.
    rewrite el_imap by (rewrite drop_length; lia). rewrite decide_True by done. unfold softmax_of, active_sum, everything. rewrite el_drop. f_equal.
    apply sumn_ext. intros. by rewrite el_drop.
  - intros q [Hq|Hq].
    + rewrite el_app_l by lia. by apply el_take.
    + destruct (decide (q < length sm)%nat).
      * rewrite el_app_r by lia. rewrite Ht. rewrite el_imap by (rewrite drop_length; lia). rewrite decide_False by lia. rewrite el_drop. f_equal. lia.
      * rewrite !el_ge; [done|lia|]. rewrite app_length, imap_length, drop_length, Ht. lia.
Qed.

(** combined value of atom k of action i when action_mean_layer starts from mean *)
Definition comb (n actions : nat) (A V mean : list R) (i k : nat) : R :=
  el V k + el A (i * n + k) + (el mean k - sumn actions (fun j => el A (j * n + k))) * (1 / INR actions).

Lemma distributions_run n actions A V mean add sm :
  length A = (actions * n)%nat -> length V = n -> length mean = n -> length add = (actions * n)%nat -> length sm = (actions * n)%nat ->
  exists mean' add' sm', distributions n actions A V (mean, add, sm) = Some (mean', add', sm') /\
    length mean' = n /\ length add' = (actions * n)%nat /\ length sm' = (actions * n)%nat /\
    (forall i k, (i < actions)%nat -> (k < n)%nat -> el add' (i * n + k) = comb n actions A V mean i k) /\
    (forall i k, (i < actions)%nat -> (k < n)%nat -> el sm' (i * n + k) = exp (comb n actions A V mean i k) / sumn n (fun k' => exp (comb n actions A V mean i k'))).
Proof.
  intros HA HV Hm Ha Hs. unfold distributions. rewrite action_mean_run by done. cbn [mbind option_bind].
  set (mean' := imap _ mean).
  assert (Hml : length mean' = n) by (unfold mean'; by rewrite imap_length).
  assert (Hme : forall k, (k < n)%nat -> el mean' k = (el mean k - sumn actions (fun j => el A (j * n + k))) * (1 / INR actions)).
  { intros k Hk. unfold mean'. by rewrite el_imap by lia. }
  edestruct (for_loop_inv (fun i st => length (fst st) = (actions * n)%nat /\ length (snd st) = (actions * n)%nat /\
      (forall r k, (r < i)%nat -> (k < n)%nat -> el (fst st) (r * n + k) = comb n actions A V mean r k) /\
      (forall r k, (r < i)%nat -> (k < n)%nat -> el (snd st) (r * n + k) = exp (comb n actions A V mean r k) / sumn n (fun k' => exp (comb n actions A V mean r k'))))
    (fun i st => let '(add, sm) := st in add ← add_row n i A V mean' add;
      sm ← on_tail (i * n)%nat (fun t => softmax (drop (i * n)%nat add) t n) sm; Some (add, sm)) actions 0 (add, sm)) as ([add' sm'] & E & H1 & H2 & H3 & H4).
  - cbn [fst snd]. split; [done|]. split; [done|]. split; intros; lia.
  - intros i [a s] Hi (L1 & L2 & C1 & C2). cbn [fst snd] in *. rewrite (add_row_run n actions) by (done || lia). cbn [mbind option_bind].
    set (a' := imap _ a). assert (La' : length a' = (actions * n)%nat) by (unfold a'; by rewrite imap_length).
    assert (Hin : (i * n + n <= actions * n)%nat) by nia.
    assert (Hrow : forall k, (k < n)%nat -> el a' (i * n + k) = comb n actions A V mean i k).
    { intros k Hk. unfold a'. rewrite el_imap by lia. rewrite decide_True by lia. replace (i * n + k - i * n)%nat with k by lia. rewrite Hme by done. unfold comb. lra. }
    destruct (softmax_tail (i * n) n a' s) as (s' & E & Ls & Hs1 & Hs2); [lia|lia|]. rewrite E. cbn [mbind option_bind].
    eexists. split; [done|]. cbn [fst snd]. split; [done|]. split; [lia|]. split.
    + intros r k Hr Hk. destruct (decide (r = i)) as [->|]; [by apply Hrow|]. assert (r < i)%nat by lia.
      assert (r * n + k < i * n)%nat by nia. unfold a'. rewrite el_imap by nia. rewrite decide_False by lia. apply C1; lia.
    + intros r k Hr Hk. destruct (decide (r = i)) as [->|].
      * rewrite Hs1 by done. rewrite Hrow by done. f_equal. apply sumn_ext. intros. by rewrite Hrow.
      * assert (r * n + k < i * n)%nat by nia. rewrite Hs2 by lia. apply C2; lia.
  - rewrite E. cbn [mbind option_bind fst snd] in *. exists mean', add', sm'. split; [done|]. split; [done|]. split; [done|]. split; [done|].
    rewrite Nat.add_0_l in H3, H4. by split.
Qed.

Lemma quantiles_run n actions A V mean add sm :
  length A = (actions * n)%nat -> length V = n -> length mean = n -> length add = (actions * n)%nat -> length sm = (actions * n)%nat ->
  exists mean' add', quantiles n actions A V (mean, add, sm) = Some (mean', add', add') /\ length add' = (actions * n)%nat /\
    (forall i k, (i < actions)%nat -> (k < n)%nat -> el add' (i * n + k) = comb n actions A V mean i k).
Proof.
  intros HA HV Hm Ha Hs. unfold quantiles. rewrite action_mean_run by done. cbn [mbind option_bind].
  set (mean' := imap _ mean).
  assert (Hml : length mean' = n) by (unfold mean'; by rewrite imap_length).
  assert (Hme : forall k, (k < n)%nat -> el mean' k = (el mean k - sumn actions (fun j => el A (j * n + k))) * (1 / INR actions)).
  { intros k Hk. unfold mean'. by rewrite el_imap by lia. }
  edestruct (for_loop_inv (fun i st => length st = (actions * n)%nat /\
      (forall r k, (r < i)%nat -> (k < n)%nat -> el st (r * n + k) = comb n actions A V mean r k))
    (fun i add => add_row n i A V mean' add) actions 0 add) as (add' & E & H1 & H3).
  - split; [done|]. intros; lia.
  - intros i a Hi (L1 & C1). rewrite (add_row_run n actions) by (done || lia).
    set (a' := imap _ a). assert (La' : length a' = (actions * n)%nat) by (unfold a'; by rewrite imap_length).
    assert (Hin : (i * n + n <= actions * n)%nat) by nia.
    eexists. split; [done|]. split; [done|].
    intros r k Hr Hk. destruct (decide (r = i)) as [->|].
    + unfold a'. rewrite el_imap by lia. rewrite decide_True by lia. replace (i * n + k - i * n)%nat with k by lia. rewrite Hme by done. unfold comb. lra.
    + assert (r < i)%nat by lia.
      assert (r * n + k < i * n)%nat by nia. unfold a'. rewrite el_imap by nia. rewrite decide_False by lia. apply C1; lia.
  - rewrite E. cbn [mbind option_bind].
    assert (Hc : for_loop (actions * n) 0 (fun k sm => a ← rd add' k; wr sm k a) sm = Some add').
    { rewrite (Pointwise_loop (actions * n) (actions * n) 0 _ (fun k _ => el add' k) ltac:(lia)); [| |done].
      - f_equal. apply list_eq. intros k. rewrite list_lookup_imap. destruct (decide (k < actions * n)%nat) as [Hk|Hk].
        + rewrite (lookup_el sm) by lia. cbn. rewrite decide_True by lia. rewrite Nat.sub_0_r. by rewrite lookup_el by lia.
        + rewrite !lookup_ge_None_2 by lia. done.
      - intros k Hk l Hl. rewrite rd_el by lia. cbn [mbind option_bind]. by rewrite (Pointwise_wr (actions * n)) by lia. }
    rewrite Hc. cbn [mbind option_bind]. exists mean', add'. split; [done|]. split; [done|]. by rewrite Nat.add_0_l in H3.
Qed.

Lemma q_functions_run n actions sm support q : length sm = (actions * n)%nat -> length support = n -> length q = actions ->
  q_functions n actions sm support q = Some (imap (fun i x => x + sumn n (fun j => el sm (i * n + j) * el support j)) q).
Proof.
  intros Hs Hz Hq. unfold q_functions.
  rewrite (Pointwise_loop actions actions 0 _ (fun i x => x + sumn n (fun j => el sm (i * n + j) * el support j)) ltac:(lia)); [| |done].
  - f_equal. apply imap_ext_lt. intros k x Hk _. rewrite decide_True by lia. by rewrite Nat.sub_0_r.
  - intros i Hi. eapply Pointwise_ext.
    + apply (Adds_loop actions n _ (fun j k => if decide (k = i) then el sm (i * n + j) * el support j else 0)). intros j Hj.
      apply (Adds_body actions _ (fun l => addat l i (el sm (i * n + j) * el support j))); [|by apply Adds_at].
      intros l Hl. rewrite !rd_el by (rewrite ?Hs, ?Hz; try apply flat_lt; done). done.
    + intros k x Hk. cbn. destruct (decide (k = i)); [done|]. rewrite sumn_0; [lra|done].
Qed.
Lemma q_functions_qr_run n actions sm q : length sm = (actions * n)%nat -> length q = actions ->
  q_functions_qr n actions sm q = Some (imap (fun i x => x + sumn n (fun j => el sm (i * n + j) / INR n)) q).
Proof.
  intros Hs Hq. unfold q_functions_qr.
  rewrite (Pointwise_loop actions actions 0 _ (fun i x => x + sumn n (fun j => el sm (i * n + j) / INR n)) ltac:(lia)); [| |done].
  - f_equal. apply imap_ext_lt. intros k x Hk _. rewrite decide_True by lia. by rewrite Nat.sub_0_r.
  - intros i Hi. eapply Pointwise_ext.
    + apply (Adds_loop actions n _ (fun j k => if decide (k = i) then el sm (i * n + j) / INR n else 0)). intros j Hj.
      apply (Adds_body actions _ (fun l => addat l i (el sm (i * n + j) / INR n))); [|by apply Adds_at].
      intros l Hl. rewrite !rd_el by (rewrite ?Hs, ?Hz; try apply flat_lt; done). done.
    + intros k x Hk. cbn. destruct (decide (k = i)); [done|]. rewrite sumn_0; [lra|done].
Qed.
