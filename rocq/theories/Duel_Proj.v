From Coq Require Import Reals Lra Psatz.
From Verif Require Import NumLib NumLib2 NumLib3 BaseLemmas RealSum Grad.
From Verif Require Import Duel_Model Duel_Spec Duel_Proofs.
Open Scope R_scope.

(** ** one atom *)
Lemma whole_part b : 0 <= b -> exists l : nat, o_int reals b = Some l /\ INR l <= b < INR l + 1.
Proof.
  intros Hb. cbn. rewrite decide_True by done. eexists. split; [done|].
  destruct (base_Int_part b) as [H1 H2]. assert (H0 : (0 <= Int_part b)%Z).
  { apply le_IZR. destruct (Z_lt_le_dec (Int_part b) 0) as [Hz|Hz]; [|by apply IZR_le]. exfalso.
    assert (Int_part b <= -1)%Z as Hle by lia. apply IZR_le in Hle. lra. }
  rewrite INR_IZR_INZ, Z2Nat.id by done. lra.
Qed.

Lemma share_cases (d vmin b : R) (l j : nat) : 0 < d -> INR l <= b <= INR l + 1 ->
  share d (vmin + b * d) (vmin + INR j * d) = if decide (j = l) then INR l + 1 - b else if decide (j = l + 1)%nat then b - INR l else 0.
Proof.
  intros Hd Hb. unfold share.
  assert (E : Rabs (vmin + b * d - (vmin + INR j * d)) / d = Rabs (b - INR j)).
  { replace (vmin + b * d - (vmin + INR j * d)) with ((b - INR j) * d) by lra. rewrite Rabs_mult, (Rabs_right d) by lra. field. lra. }
  rewrite E. destruct (decide (j = l)) as [->|Hjl].
  - rewrite Rabs_right by lra. rewrite Rmax_right by lra. rewrite Rmin_right by lra. lra.
  - destruct (decide (j = l + 1)%nat) as [->|Hj2].
    + rewrite plus_INR. cbn [INR]. rewrite Rabs_left1 by lra. rewrite Rmax_right by lra. rewrite Rmin_right by lra. lra.
    + assert (1 <= Rabs (b - INR j)).
      { destruct (decide (j < l)%nat) as [Hlt|Hge].
        - assert (INR j + 1 <= INR l) by (rewrite <- S_INR; apply le_INR; lia). rewrite Rabs_right by lra. lra.
        - assert (INR l + 2 <= INR j). { replace (INR l + 2) with (INR (l + 2)) by (rewrite plus_INR; cbn; lra). apply le_INR. lia. }
          rewrite Rabs_left1 by lra. lra. }
      rewrite Rmax_left by lra. rewrite Rmin_right by lra. done.
Qed.

Lemma clip_run x lo hi : lo <= hi -> clip reals x lo hi = Some (clipped lo hi x).
Proof.
  intros H. unfold clip, clipped. cbn. rewrite bool_decide_eq_false_2 by lra. f_equal.
  destruct (decide (x < lo)) as [Hl|Hl].
  - rewrite bool_decide_eq_true_2 by done. rewrite Rmin_right by lra. rewrite Rmax_left by lra. done.
  - rewrite (bool_decide_eq_false_2 (x < lo)) by done. destruct (decide (hi < x)) as [Hh|Hh].
    + rewrite bool_decide_eq_true_2 by done. rewrite Rmin_left by lra. rewrite Rmax_right by lra. done.
    + rewrite bool_decide_eq_false_2 by done. rewrite Rmin_right by lra. rewrite Rmax_right by lra. done.
Qed.
Lemma clipped_range lo hi x : lo <= hi -> lo <= clipped lo hi x <= hi.
Proof. intros H. unfold clipped. split; [apply Rmax_l|]. apply Rmax_lub; [done|apply Rmin_l]. Qed.

Lemma atoms_run n vmin vmax : (2 <= n)%nat -> exists support,
  atoms reals n vmin vmax ((vmax - vmin) / INR (n - 1)) = support /\ length support = n /\ forall i, (i < n)%nat -> el support i = atom n vmin vmax i.
Proof.
  intros Hn. eexists. split; [done|]. unfold atoms. cbn. split.
  - rewrite app_length, map_length, seq_length. cbn. lia.
  - intros i Hi. destruct (decide (i < n - 1)%nat).
    + rewrite el_app_l by (rewrite map_length, seq_length; lia). rewrite el_map_seq by done. done.
    + rewrite el_app_r by (rewrite map_length, seq_length; lia). rewrite map_length, seq_length. replace (i - (n - 1))%nat with 0%nat by lia. cbn. unfold atom.
      replace i with (n - 1)%nat by lia. field. apply not_0_INR. lia.
Qed.

Definition weight (n : nat) (nonterminal : bool) (p : list R) (i : nat) : R := mass n nonterminal p i.

Lemma add_at_reals l i v : add_at reals l i v = addat l i v.
Proof. done. Qed.

(** the atom's two writes: its place x is inside the support *)
Lemma split_atom_run n nonterminal vmin vmax p i x :
  (2 <= n)%nat -> vmin < vmax -> (i < length p)%nat -> vmin <= x <= vmax ->
  Adds n (split_atom reals n nonterminal vmin ((vmax - vmin) / INR (n - 1)) p i x)
    (fun j => mass n nonterminal p i * share ((vmax - vmin) / INR (n - 1)) x (atom n vmin vmax j)).
Proof.
  intros Hn Hv Hi Hx. set (d := (vmax - vmin) / INR (n - 1)).
  assert (Hn1 : 0 < INR (n - 1)) by (apply lt_0_INR; lia).
  assert (Hd : 0 < d) by (apply Rdiv_lt_0_compat; lra).
  assert (Hdn : d * INR (n - 1) = vmax - vmin) by (unfold d; field; lra).
  set (b := (x - vmin) / d). assert (Hxb : x = vmin + b * d) by (unfold b; field; lra).
  assert (Hb0 : 0 <= b) by (apply Rmult_le_pos; [lra|left; by apply Rinv_0_lt_compat]).
  assert (Hbn : b <= INR (n - 1)). { apply (Rmult_le_reg_r d); [done|]. lra. }
  destruct (whole_part b Hb0) as (l0 & El & Hl0).
  set (l := if bool_decide (b = INR l0) then if decide (0 < l0)%nat then (l0 - 1)%nat else l0 else l0).
  assert (Hl : INR l <= b <= INR l + 1 /\ (l + 1 < n)%nat).
  { unfold l. case_bool_decide as Hbe.
    - assert (Hle : (l0 <= n - 1)%nat) by (apply INR_le; lra). destruct (decide (0 < l0)%nat).
      + rewrite minus_INR by lia. cbn [INR]. split; [lra|lia].
      + split; [lra|lia].
    - assert (l0 < n - 1)%nat by (apply INR_lt; lra). split; [lra|lia]. }
  destruct Hl as [Hlb Hln].
  assert (Erun : forall m, split_atom reals n nonterminal vmin d p i x m =
     (m ← addat m l (mass n nonterminal p i * (INR l + 1 - b)); addat m (l + 1)%nat (mass n nonterminal p i * (b - INR l)))).
  { intros m. unfold split_atom. cbn [o_div reals o_sub o_nat o_eq o_mul]. rewrite decide_False by lra. cbn [mbind option_bind]. fold b.
    change (o_int reals b) with (o_int reals b). rewrite El. cbn [mbind option_bind]. fold l. rewrite plus_INR. cbn [INR].
    assert (HnR : INR n <> 0) by (apply not_0_INR; lia).
    destruct nonterminal; cbn [mass].
    - rewrite rd_el by done. cbn [mbind option_bind]. done.
    - rewrite !(decide_False (P := INR n = 0)) by done. cbn [mbind option_bind]. rewrite !add_at_reals.
      replace ((INR l + 1 - b) / INR n) with (1 / INR n * (INR l + 1 - b)) by (unfold Rdiv; lra).
      replace ((b - INR l) / INR n) with (1 / INR n * (b - INR l)) by (unfold Rdiv; lra). done. }
  apply (Adds_body n _ _ _ (fun m _ => Erun m)).
  eapply Adds_ext; [apply Adds_seq; apply Adds_at; lia|]. intros j Hj. cbn beta. rewrite Hxb. unfold atom. fold d. rewrite (share_cases d vmin b l j Hd Hlb).
  destruct (decide (j = l)) as [->|].
  - rewrite decide_False by lia. lra.
  - destruct (decide (j = l + 1)%nat); lra.
Qed.

Lemma share_facts n vmin vmax x : (2 <= n)%nat -> vmin < vmax -> vmin <= x <= vmax ->
  sumn n (fun j => share ((vmax - vmin) / INR (n - 1)) x (atom n vmin vmax j)) = 1 /\
  sumn n (fun j => share ((vmax - vmin) / INR (n - 1)) x (atom n vmin vmax j) * atom n vmin vmax j) = x.
Proof.
  intros Hn Hv Hx. set (d := (vmax - vmin) / INR (n - 1)).
  assert (Hn1 : 0 < INR (n - 1)) by (apply lt_0_INR; lia).
  assert (Hd : 0 < d) by (apply Rdiv_lt_0_compat; lra).
  assert (Hdn : d * INR (n - 1) = vmax - vmin) by (unfold d; field; lra).
  set (b := (x - vmin) / d). assert (Hxb : x = vmin + b * d) by (unfold b; field; lra).
  assert (Hb0 : 0 <= b) by (apply Rmult_le_pos; [lra|left; by apply Rinv_0_lt_compat]).
  assert (Hbn : b <= INR (n - 1)). { apply (Rmult_le_reg_r d); [done|]. lra. }
  destruct (whole_part b Hb0) as (l0 & _ & Hl0).
  assert (exists l : nat, INR l <= b <= INR l + 1 /\ (l + 1 < n)%nat) as (l & Hlb & Hln).
  { destruct (decide (l0 < n - 1)%nat).
    - exists l0. split; [lra|lia].
    - assert (Hge : INR (n - 1) <= INR l0) by (apply le_INR; lia). exists (n - 2)%nat.
      assert (INR (n - 1) = INR (n - 2) + 1). { rewrite <- S_INR. f_equal. lia. } split; [lra|lia]. }
  assert (Hs : forall j, share d x (atom n vmin vmax j) = (if decide (j = l) then INR l + 1 - b else 0) + (if decide (j = l + 1)%nat then b - INR l else 0)).
  { intros j. rewrite Hxb. unfold atom. fold d. rewrite (share_cases d vmin b l j Hd Hlb). destruct (decide (j = l)) as [->|]; [rewrite decide_False by lia; lra|lra]. }
  split.
  - rewrite (sumn_ext _ _ _ (fun j _ => Hs j)). rewrite sumn_plus. rewrite (sumn_delta n l (fun _ => INR l + 1 - b)) by lia.
    rewrite (sumn_delta n (l + 1) (fun _ => b - INR l)) by lia. lra.
  - rewrite (sumn_ext _ _ (fun j => (if decide (j = l) then (INR l + 1 - b) * atom n vmin vmax j else 0) + (if decide (j = l + 1)%nat then (b - INR l) * atom n vmin vmax j else 0))).
    + rewrite sumn_plus. rewrite (sumn_delta n l (fun j => (INR l + 1 - b) * atom n vmin vmax j)) by lia.
      rewrite (sumn_delta n (l + 1) (fun j => (b - INR l) * atom n vmin vmax j)) by lia.
      unfold atom. fold d. rewrite plus_INR. cbn [INR]. rewrite Hxb. ring.
    + intros j _. rewrite Hs. destruct (decide (j = l)), (decide (j = l + 1)%nat); lra.
Qed.

Lemma projection_run n nonterminal reward lambda vmin vmax p :
  (2 <= n)%nat -> vmin < vmax -> (n <= length p)%nat ->
  exists m, projection reals n nonterminal reward lambda vmin vmax ((vmax - vmin) / INR (n - 1)) (atoms reals n vmin vmax ((vmax - vmin) / INR (n - 1))) p = Some m /\
    length m = n /\ forall j, (j < n)%nat -> el m j = projected n vmin vmax reward lambda nonterminal p j.
Proof.
  intros Hn Hv Hp. destruct (atoms_run n vmin vmax Hn) as (support & -> & Hsl & Hse). unfold projection.
  set (d := (vmax - vmin) / INR (n - 1)).
  assert (H : Adds n (for_loop n 0 (fun i m => tz ← target reals nonterminal reward lambda vmin vmax support i; split_atom reals n nonterminal vmin d p i tz m))
     (fun j => sumn n (fun i => mass n nonterminal p i * share d (moved n vmin vmax reward lambda nonterminal i) (atom n vmin vmax j)))).
  { apply (Adds_loop n n _ (fun i j => mass n nonterminal p i * share d (moved n vmin vmax reward lambda nonterminal i) (atom n vmin vmax j))). intros i Hi.
    apply (Adds_body n _ (split_atom reals n nonterminal vmin d p i (moved n vmin vmax reward lambda nonterminal i))).
    - intros m _. unfold target. destruct nonterminal.
      + rewrite rd_el by lia. cbn [mbind option_bind reals o_add o_mul]. fold reals. rewrite clip_run by lra. cbn [mbind option_bind]. unfold moved. by rewrite Hse.
      + cbn [mbind option_bind]. rewrite clip_run by lra. done.
    - apply split_atom_run; [done|done|lia|]. unfold moved. apply clipped_range. lra. }
  rewrite (H _ (replicate_length n _)). eexists. split; [done|]. rewrite imap_length, replicate_length. split; [done|].
  intros j Hj. rewrite el_imap by (by rewrite replicate_length). cbn [o_nat reals INR]. rewrite el_replicate. unfold projected. fold d. lra.
Qed.

Lemma projected_total n vmin vmax reward lambda nonterminal p : (2 <= n)%nat -> vmin < vmax ->
  sumn n (projected n vmin vmax reward lambda nonterminal p) = sumn n (mass n nonterminal p).
Proof.
  intros Hn Hv. unfold projected. rewrite (sumn_swap n n (fun j i => mass n nonterminal p i * share ((vmax - vmin) / INR (n - 1)) (moved n vmin vmax reward lambda nonterminal i) (atom n vmin vmax j))).
  apply sumn_ext. intros i Hi. rewrite sumn_scal_l. unfold moved. rewrite (proj1 (share_facts n vmin vmax _ Hn Hv (clipped_range vmin vmax _ ltac:(lra)))). lra.
Qed.
Lemma projected_mean n vmin vmax reward lambda nonterminal p : (2 <= n)%nat -> vmin < vmax ->
  sumn n (fun j => projected n vmin vmax reward lambda nonterminal p j * atom n vmin vmax j) =
  sumn n (fun i => mass n nonterminal p i * moved n vmin vmax reward lambda nonterminal i).
Proof.
  intros Hn Hv. unfold projected.
  transitivity (sumn n (fun j => sumn n (fun i => mass n nonterminal p i * (share ((vmax - vmin) / INR (n - 1)) (moved n vmin vmax reward lambda nonterminal i) (atom n vmin vmax j) * atom n vmin vmax j)))).
  { apply sumn_ext. intros j _. rewrite <- sumn_scal_r. apply sumn_ext. intros. lra. }
  rewrite (sumn_swap n n (fun j i => mass n nonterminal p i * (share ((vmax - vmin) / INR (n - 1)) (moved n vmin vmax reward lambda nonterminal i) (atom n vmin vmax j) * atom n vmin vmax j))).
  apply sumn_ext. intros i Hi. rewrite sumn_scal_l. unfold moved. by rewrite (proj2 (share_facts n vmin vmax _ Hn Hv (clipped_range vmin vmax _ ltac:(lra)))).
Qed.
Lemma projected_nonneg n vmin vmax reward lambda nonterminal p j : (2 <= n)%nat -> (nonterminal = true -> forall i, (i < n)%nat -> 0 <= el p i) ->
  0 <= projected n vmin vmax reward lambda nonterminal p j.
Proof.
  intros Hn Hp. apply sumn_nonneg. intros i Hi. apply Rmult_le_pos.
  - unfold mass. destruct nonterminal; [by apply Hp|]. left. apply Rdiv_lt_0_compat; [lra|]. apply lt_0_INR. lia.
  - unfold share. apply Rmin_glb; [lra|apply Rmax_l].
Qed.

(** ** argmax *)
Lemma argmax_run v n : (0 < n <= length v)%nat -> exists i, argmax v n = Some i /\ first_argmax n (el v) i.
Proof.
  intros Hn. unfold argmax. rewrite decide_False by lia. rewrite rd_el by lia. cbn [mbind option_bind].
  edestruct (for_loop_inv (fun i st => fst st = el v (snd st) /\ (snd st < n)%nat /\ (forall j, (j < i)%nat -> el v j <= fst st) /\ (forall j, (j < snd st)%nat -> el v j < fst st))
    (fun i st => let '(mx, index) := st in x ← rd v i; Some (if decide (mx < x) then (x, i) else (mx, index))) n 0 (el v 0, 0%nat)) as ([mx i] & E & H1 & H2 & H3 & H4).
  - cbn. split; [done|]. split; [lia|]. split; intros; lia.
  - intros i [mx index] Hi (E1 & E2 & E3 & E4). cbn [fst snd] in *. rewrite rd_el by lia. cbn [mbind option_bind]. eexists. split; [done|].
    destruct (decide (mx < el v i)); cbn [fst snd].
    + split; [done|]. split; [lia|]. split.
      * intros j Hj. destruct (decide (j = i)) as [->|]; [lra|]. pose proof (E3 j ltac:(lia)). lra.
      * intros j Hj. pose proof (E3 j ltac:(lia)). lra.
    + split; [done|]. split; [lia|]. split; [|done]. intros j Hj. destruct (decide (j = i)) as [->|]; [lra|]. apply E3. lia.
  - rewrite E. cbn [mbind option_bind fst snd] in *. exists i. split; [done|]. split; [done|]. rewrite <- H1. split; [|done]. intros j Hj. apply H3. lia.
Qed.
Lemma first_argmax_unique n f i j : first_argmax n f i -> first_argmax n f j -> i = j.
Proof.
  intros (H1 & H2 & H3) (K1 & K2 & K3). destruct (lt_eq_lt_dec i j) as [[Hl|]|Hl]; [|done|].
  - pose proof (K3 i Hl). pose proof (H2 j K1). lra.
  - pose proof (H3 j Hl). pose proof (K2 i H1). lra.
Qed.
Lemma first_argmax_ext n f g i : (forall j, (j < n)%nat -> f j = g j) -> first_argmax n f i -> first_argmax n g i.
Proof.
  intros E (H1 & H2 & H3). split; [done|]. split; intros j Hj.
  - rewrite <- !E by done. by apply H2.
  - rewrite <- !E by (done || lia). by apply H3.
Qed.

(** ** error rows *)
Lemma error_row_run n actions a m sm error : length m = n -> length sm = (actions * n)%nat -> length error = (actions * n)%nat -> (a < actions)%nat ->
  (forall k, (k < n)%nat -> el sm (a * n + k) <> 0) ->
  exists error', error_row n a m sm error = Some error' /\ length error' = (actions * n)%nat /\
    (forall k, (k < n)%nat -> el error' (a * n + k) = - (el m k / el sm (a * n + k))) /\
    (forall q, (q < a * n)%nat \/ (a * n + n <= q)%nat -> el error' q = el error q).
Proof.
  intros Hm Hs He Ha Hp. unfold error_row. assert (Hin : (a * n + n <= actions * n)%nat) by nia.
  rewrite (Pointwise_loop (actions * n) n (a * n) _ (fun k _ => - (el m k / el sm (a * n + k))) Hin); [| |done].
  - eexists. split; [done|]. rewrite imap_length. split; [done|]. split.
    + intros k Hk. rewrite el_imap by lia. rewrite decide_True by lia. by replace (a * n + k - a * n)%nat with k by lia.
    + intros q Hq. destruct (decide (q < length error)%nat).
      * rewrite el_imap by done. by rewrite decide_False by lia.
      * rewrite !el_ge; [done|lia|rewrite imap_length; lia].
  - intros k Hk l Hl. rewrite !rd_el by lia. cbn [mbind option_bind].
    destruct (decide (el m k = 0)) as [E|E].
    + rewrite (Pointwise_wr (actions * n)) by lia. rewrite E. f_equal. apply imap_ext_lt. intros q x Hq _. destruct (decide _); [|done]. unfold Rdiv. lra.
    + rewrite decide_False by (by apply Hp). rewrite (Pointwise_wr (actions * n)) by lia. f_equal. apply imap_ext_lt. intros q x Hq _. destruct (decide _); [|done]. unfold Rdiv. lra.
Qed.

Lemma weighted_error_row_run n actions a w m sm error : length m = n -> length sm = (actions * n)%nat -> length error = (actions * n)%nat -> (a < actions)%nat ->
  (forall k, (k < n)%nat -> el sm (a * n + k) <> 0) ->
  exists error', weighted_error_row n a w m sm error = Some (error', Rabs (w * kl n (el m) (fun k => el sm (a * n + k)))) /\ length error' = (actions * n)%nat /\
    (forall k, (k < n)%nat -> el error' (a * n + k) = - (w * (el m k / el sm (a * n + k)))) /\
    (forall q, (q < a * n)%nat \/ (a * n + n <= q)%nat -> el error' q = el error q).
Proof.
  intros Hm Hs He Ha Hp. unfold weighted_error_row. assert (Hin : (a * n + n <= actions * n)%nat) by nia.
  rewrite (for_loop_pair (fun i l => wr l (a * n + i)%nat (- (w * (el m i / el sm (a * n + i)))))
     (fun i s => Some (s + w * if decide (el m i = 0) then 0 else el m i * ln (el m i / el sm (a * n + i))))).
  2: { intros i l s Hi. rewrite !rd_el by lia. cbn [mbind option_bind]. destruct (decide (el m i = 0)) as [E|E].
       - rewrite E. replace (- (w * (0 / el sm (a * n + i)))) with 0 by (unfold Rdiv; lra).
         destruct (wr l (a * n + i) 0); cbn [mbind option_bind]; [|done]. do 2 f_equal. lra.
       - rewrite decide_False by (apply Hp; lia). replace (- w * el m i / el sm (a * n + i)) with (- (w * (el m i / el sm (a * n + i)))) by (unfold Rdiv; lra).
         destruct (wr l (a * n + i) _); cbn [mbind option_bind]; [|done]. do 2 f_equal. lra. }
  rewrite (Pointwise_loop (actions * n) n (a * n) _ (fun k _ => - (w * (el m k / el sm (a * n + k)))) Hin); [| |done].
  2: { intros k Hk l Hl. by rewrite (Pointwise_wr (actions * n)) by lia. }
  cbn [mbind option_bind].
  pose proof (for_loop_sum n (fun i => Some (w * if decide (el m i = 0) then 0 else el m i * ln (el m i / el sm (a * n + i)))) (fun i => w * if decide (el m i = 0) then 0 else el m i * ln (el m i / el sm (a * n + i))) 0 (fun i _ => eq_refl)) as Hsum.
  unfold sum_loop in Hsum. cbn [mbind option_bind] in Hsum. rewrite Hsum. cbn [mbind option_bind]. rewrite Rplus_0_l, sumn_scal_l. fold (kl n (el m) (fun k => el sm (a * n + k))).
  eexists. split; [|split; [|split]].
  - f_equal. f_equal. unfold Rabs. destruct (decide (_ < 0)), (Rcase_abs _); lra.
  - by rewrite imap_length.
  - intros k Hk. rewrite el_imap by lia. rewrite decide_True by lia. by replace (a * n + k - a * n)%nat with k by lia.
  - intros q Hq. destruct (decide (q < length error)%nat).
    * rewrite el_imap by done. by rewrite decide_False by lia.
    * rewrite !el_ge; [done|lia|rewrite imap_length; lia].
Qed.

(** Gibbs: the divergence is not negative *)
Lemma ln_le_minus x : 0 < x -> ln x <= x - 1.
Proof.
  intros Hx. pose proof (exp_ineq1_le (ln x)) as H. rewrite exp_ln in H by done. lra.
Qed.
Lemma kl_nonneg n m p : (forall i, (i < n)%nat -> 0 <= m i) -> (forall i, (i < n)%nat -> 0 < p i) -> sumn n p <= sumn n m -> 0 <= kl n m p.
Proof.
  intros Hm Hp Hs. unfold kl. assert (sumn n (fun i => m i - p i) <= sumn n (fun i => if decide (m i = 0) then 0 else m i * ln (m i / p i))).
  { apply sumn_le. intros i Hi. pose proof (Hm i Hi). pose proof (Hp i Hi). destruct (decide (m i = 0)) as [E|E]; [lra|].
    assert (0 < m i) by lra. assert (Hq : 0 < p i / m i) by (by apply Rdiv_lt_0_compat).
    pose proof (ln_le_minus _ Hq) as Hl. replace (m i / p i) with (/ (p i / m i)) by (field; lra). rewrite ln_Rinv by done.
    assert (m i * ln (p i / m i) <= m i * (p i / m i - 1)) by (apply Rmult_le_compat_l; lra).
    replace (m i * (p i / m i - 1)) with (p i - m i) in * by (field; lra). lra. }
  rewrite sumn_minus in H. lra.
Qed.
