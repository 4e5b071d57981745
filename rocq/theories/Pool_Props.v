(** C28 pooling. *)
From Verif Require Import NumLib NumLib3 Conv_Model Conv_Spec Conv_Proofs Pool_Model.
Open Scope nat_scope.

(** Specification.  Window (i,j) of an image with rows of length ij covers rows i*s1..i*s1+pi-1 and columns
    j*s2..j*s2+pj-1. *)
Definition px (ij s1 s2 : nat) (x : list R) (i j k1 k2 : nat) : R := el x ((i * s1 + k1) * ij + (j * s2 + k2)).
(** v is the maximum of f over the window *)
Definition is_max (pi pj : nat) (f : nat -> nat -> R) (v : R) : Prop :=
  (exists k1 k2, k1 < pi /\ k2 < pj /\ v = f k1 k2) /\ forall k1 k2, k1 < pi -> k2 < pj -> (f k1 k2 <= v)%R.
(** (a,b) is the first maximal position in row order *)
Definition first_max (pi pj : nat) (f : nat -> nat -> R) (a b : nat) : Prop :=
  a < pi /\ b < pj /\ forall k1 k2, k1 < pi -> k2 < pj -> (f k1 k2 <= f a b)%R /\ (k1 * pj + k2 < a * pj + b -> (f k1 k2 < f a b)%R).
Definition mean (pi pj : nat) (f : nat -> nat -> R) : R := (sum2 pi pj f / INR (pi * pj))%R.

Definition pool_shape (ii ij pi pj s1 s2 : nat) : Prop := 0 < pi <= ii /\ 0 < pj <= ij /\ s1 <> 0 /\ s2 <> 0.
(** the forward result: cell (i,j) of the un-padded region holds F i j, the border is untouched *)
Definition pooled (H W p : nat) (P : nat -> nat -> R -> Prop) (out out' : list R) : Prop :=
  length out' = length out /\
  (forall i j, i < H -> j < W -> P i j (el out' ((p + i) * (W + 2 * p) + (p + j)))) /\
  (forall r s, r < H + 2 * p -> s < W + 2 * p -> ~ (p <= r < p + H /\ p <= s < p + W) -> el out' (r * (W + 2 * p) + s) = el out (r * (W + 2 * p) + s)).

Lemma pool_dims ii ij pi pj s1 s2 p : pool_shape ii ij pi pj s1 s2 ->
  conv_ok ii ij pi pj s1 s2 = true /\ out_dim ii pi s1 p - 2 * p = positions ii pi s1 /\ out_dim ij pj s2 p - 2 * p = positions ij pj s2 /\
  out_dim ij pj s2 p = positions ij pj s2 + 2 * p.
Proof. intros (H1 & H2 & H3 & H4). unfold conv_ok. rewrite bool_decide_true by lia. unfold out_dim, positions. repeat split; lia. Qed.
Lemma pool_idx_eq ij s1 s2 i j k1 k2 : pool_idx ij s1 s2 i j k1 k2 = (i * s1 + k1) * ij + (j * s2 + k2).
Proof. unfold pool_idx. lia. Qed.
Lemma pool_lt ii ij pi pj s1 s2 i j k1 k2 : pool_shape ii ij pi pj s1 s2 -> i < positions ii pi s1 -> j < positions ij pj s2 -> k1 < pi -> k2 < pj ->
  (i * s1 + k1) * ij + (j * s2 + k2) < ii * ij /\ j * s2 + k2 < ij.
Proof.
  intros (H1 & H2 & H3 & H4) Hi Hj Hk1 Hk2. pose proof (window_fits ii pi s1 i k1 ltac:(lia) H3 Hi Hk1). pose proof (window_fits ij pj s2 j k2 ltac:(lia) H4 Hj Hk2).
  split; [by apply flat_lt|done].
Qed.

(** a loop over cells that writes one value per cell *)
Lemma pool_fill H W p body out (v : nat -> nat -> R) : length out = (H + 2 * p) * (W + 2 * p) ->
  (forall i j l, i < H -> j < W -> length l = length out -> body i j l = wr l ((p + i) * (W + 2 * p) + p + j) (v i j)) ->
  exists out', for_loop H 0 (fun i => for_loop W 0 (body i)) out = Some out' /\ pooled H W p (fun i j y => y = v i j) out out'.
Proof.
  intros Hl Hb.
  destruct (fill2 (length out) H W 0 0 body (fun i j => (p + i) * (W + 2 * p) + (p + j)) v out) as (o & E & Ho & H1 & H2).
  - intros i j l Hi Hj Hll. cbn [Nat.add]. rewrite Hb by done. by rewrite Nat.add_assoc.
  - intros i j Hi Hj. rewrite Hl. apply flat_lt; lia.
  - intros i j i' j' Hi Hj Hi' Hj' Eq. apply flat_inj in Eq; lia.
  - done.
  - exists o. split; [done|]. split; [done|]. split; [done|]. intros r s Hr Hs Hn. apply H2. intros i j Hi Hj Eq. apply flat_inj in Eq; lia.
Qed.

Lemma flat_lt_cases pj k1 k2 a b : k2 < pj -> b < pj -> k1 * pj + k2 < a * pj + b + 1 -> k1 * pj + k2 < a * pj + b \/ (k1 = a /\ k2 = b).
Proof. intros H1 H2 H. destruct (decide (k1 * pj + k2 = a * pj + b)) as [E|E]; [right; by apply flat_inj in E|left; lia]. Qed.

Lemma max_loop pi pj (f : nat -> nat -> R) (g : nat -> nat -> option R) m0 : (forall k1 k2, k1 < pi -> k2 < pj -> g k1 k2 = Some (f k1 k2)) ->
  exists m, for_loop pi 0 (fun k1 => for_loop pj 0 (fun k2 max => x ← g k1 k2; Some (if decide (x > max)%R then x else max))) m0 = Some m /\
    ((exists k1 k2, k1 < pi /\ k2 < pj /\ (f k1 k2 >= m0)%R) -> is_max pi pj f m) /\
    ((forall k1 k2, k1 < pi -> k2 < pj -> (f k1 k2 <= m0)%R) -> m = m0).
Proof.
  intros Hg.
  destruct (for_loop_inv2 (fun c m => (m0 <= m)%R /\ (m = m0 \/ exists k1 k2, k1 < pi /\ k2 < pj /\ m = f k1 k2) /\ (forall k1 k2, k1 < pi -> k2 < pj -> k1 * pj + k2 < c -> (f k1 k2 <= m)%R))
    (fun k1 k2 max => x ← g k1 k2; Some (if decide (x > max)%R then x else max)) pi pj 0 0 m0) as (m & E & H0 & H1 & H2).
  - split; [lra|]. split; [by left|]. intros; lia.
  - intros r s m Hr Hs (H0 & H1 & H2). cbn [Nat.add]. rewrite Hg by done. cbn [mbind option_bind]. eexists. split; [done|].
    destruct (decide (f r s > m)%R) as [Hgt|Hle].
    + split; [lra|]. split; [right; by exists r, s|]. intros k1 k2 Hk1 Hk2 Hlt. apply flat_lt_cases in Hlt; [|done..]. destruct Hlt as [Hlt|[-> ->]]; [|lra].
      specialize (H2 k1 k2 Hk1 Hk2 Hlt). lra.
    + split; [done|]. split; [done|]. intros k1 k2 Hk1 Hk2 Hlt. apply flat_lt_cases in Hlt; [|done..]. destruct Hlt as [Hlt|[-> ->]]; [by apply H2|lra].
  - exists m. split; [done|]. split.
    + intros (k1 & k2 & Hk1 & Hk2 & Hge). split; [|intros a b Ha Hb; apply H2; [done..|by apply flat_lt]].
      destruct H1 as [->|H1]; [|done]. exists k1, k2. split; [done|]. split; [done|]. specialize (H2 k1 k2 Hk1 Hk2 ltac:(by apply flat_lt)). lra.
    + intros Hall. destruct H1 as [H1|(k1 & k2 & Hk1 & Hk2 & ->)]; [done|]. specialize (Hall k1 k2 Hk1 Hk2). lra.
Qed.

(** forward: the maximum, provided every window has a value >= -999999 *)
Theorem C28_max_forward_partial : forall ii ij pi pj s1 s2 p x out, pool_shape ii ij pi pj s1 s2 -> length x = ii * ij ->
  let H := positions ii pi s1 in let W := positions ij pj s2 in
  length out = (H + 2 * p) * (W + 2 * p) ->
  (forall i j, i < H -> j < W -> exists k1 k2, k1 < pi /\ k2 < pj /\ (px ij s1 s2 x i j k1 k2 >= -999999)%R) ->
  exists out', max_pooling_feed_forward x out ii ij pi pj s1 s2 p = Some out' /\
    pooled H W p (fun i j => is_max pi pj (px ij s1 s2 x i j)) out out'.
Proof.
  intros ii ij pi pj s1 s2 p x out Hs Hx H W Ho Hbig. unfold max_pooling_feed_forward. destruct (pool_dims ii ij pi pj s1 s2 p Hs) as (-> & -> & -> & ->). cbn zeta. fold H W.
  assert (Hm : forall i j, i < H -> j < W -> exists m, for_loop pi 0 (fun k1 => for_loop pj 0 (fun k2 max =>
      x0 ← rd x (pool_idx ij s1 s2 i j k1 k2); Some (if decide (x0 > max)%R then x0 else max))) (-999999)%R = Some m /\ is_max pi pj (px ij s1 s2 x i j) m).
  { intros i j Hi Hj. destruct (max_loop pi pj (px ij s1 s2 x i j) (fun k1 k2 => rd x (pool_idx ij s1 s2 i j k1 k2)) (-999999)%R) as (m & E & H1 & _).
    - intros k1 k2 Hk1 Hk2. rewrite pool_idx_eq. apply rd_el. rewrite Hx. by apply (pool_lt ii ij pi pj).
    - exists m. split; [done|]. apply H1. by apply Hbig. }
  set (v := fun i j => default 0%R (for_loop pi 0 (fun k1 => for_loop pj 0 (fun k2 max => x0 ← rd x (pool_idx ij s1 s2 i j k1 k2); Some (if decide (x0 > max)%R then x0 else max))) (-999999)%R)).
  match goal with |- context [for_loop H 0 (fun i => for_loop W 0 (@?body i)) out] =>
    destruct (pool_fill H W p body out v Ho) as (o & E & Hl & H1 & H2) end.
  - intros i j l Hi Hj Hl. unfold v. destruct (Hm i j Hi Hj) as (m & -> & _). done.
  - exists o. split; [exact E|]. split; [done|]. split; [|done]. intros i j Hi Hj. rewrite H1 by done. unfold v. destruct (Hm i j Hi Hj) as (m & -> & Hmax). done.
Qed.
(** a window of very negative values does not yield its maximum *)
Theorem C28_max_forward_refuted : exists ii ij pi pj s1 s2 x out out', pool_shape ii ij pi pj s1 s2 /\ length x = ii * ij /\
  max_pooling_feed_forward x out ii ij pi pj s1 s2 0 = Some out' /\ ~ is_max pi pj (px ij s1 s2 x 0 0) (el out' 0).
Proof.
  exists 1, 1, 1, 1, 1, 1, [(-1000000)%R], [0%R], [(-999999)%R]. split; [by repeat split; lia|]. split; [done|]. split.
  - unfold max_pooling_feed_forward. cbn -[decide]. rewrite decide_False by lra. done.
  - intros [(k1 & k2 & H1 & H2 & E) _]. assert (k1 = 0) as -> by lia. assert (k2 = 0) as -> by lia. unfold px, el in E. cbn in E. lra.
Qed.

Lemma scan_first_max pi pj (f : nat -> nat -> R) (g : nat -> nat -> option R) m0 a0 b0 : (forall k1 k2, k1 < pi -> k2 < pj -> g k1 k2 = Some (f k1 k2)) ->
  (exists k1 k2, k1 < pi /\ k2 < pj /\ (f k1 k2 > m0)%R) ->
  exists m a b, for_loop pi 0 (fun k1 => for_loop pj 0 (fun k2 (st : R * nat * nat) => x ← g k1 k2; Some (if decide (x > st.1.1)%R then (x, k1, k2) else st))) (m0, a0, b0) = Some (m, a, b) /\
    first_max pi pj f a b.
Proof.
  intros Hg Hex.
  destruct (for_loop_inv2 (fun c (st : R * nat * nat) => (st.1.1 = m0 /\ forall k1 k2, k1 < pi -> k2 < pj -> k1 * pj + k2 < c -> (f k1 k2 <= m0)%R) \/
      (st.1.2 < pi /\ st.2 < pj /\ (f st.1.2 st.2 > m0)%R /\ st.1.1 = f st.1.2 st.2 /\ st.1.2 * pj + st.2 < c /\
       forall k1 k2, k1 < pi -> k2 < pj -> k1 * pj + k2 < c -> (f k1 k2 <= f st.1.2 st.2)%R /\ (k1 * pj + k2 < st.1.2 * pj + st.2 -> (f k1 k2 < f st.1.2 st.2)%R)))
    (fun k1 k2 (st : R * nat * nat) => x ← g k1 k2; Some (if decide (x > st.1.1)%R then (x, k1, k2) else st)) pi pj 0 0 (m0, a0, b0)) as (((m & a) & b) & E & HP).
  - left. split; [done|]. intros; lia.
  - intros r s ((m & a) & b) Hr Hs HP. cbn [Nat.add fst snd] in *. rewrite Hg by done. cbn [mbind option_bind]. eexists. split; [done|].
    destruct HP as [(-> & HP)|(Ha & Hb & Hgt & -> & Hlt & HP)].
    + destruct (decide (f r s > m0)%R) as [Hgt|Hle]; cbn [fst snd].
      * right. split; [done|]. split; [done|]. split; [done|]. split; [done|]. split; [lia|]. intros k1 k2 Hk1 Hk2 Hc. apply flat_lt_cases in Hc; [|done..].
        destruct Hc as [Hc|[-> ->]]; [|split; [lra|lia]]. specialize (HP k1 k2 Hk1 Hk2 Hc). split; [lra|]. intros; lra.
      * left. split; [done|]. intros k1 k2 Hk1 Hk2 Hc. apply flat_lt_cases in Hc; [|done..]. destruct Hc as [Hc|[-> ->]]; [by apply HP|lra].
    + destruct (decide (f r s > f a b)%R) as [Hg2|Hle]; cbn [fst snd]; right.
      * split; [done|]. split; [done|]. split; [lra|]. split; [done|]. split; [lia|]. intros k1 k2 Hk1 Hk2 Hc. apply flat_lt_cases in Hc; [|done..].
        destruct Hc as [Hc|[-> ->]]; [|split; [lra|lia]]. destruct (HP k1 k2 Hk1 Hk2 Hc). split; [lra|]. intros; lra.
      * split; [done|]. split; [done|]. split; [lra|]. split; [done|]. split; [lia|]. intros k1 k2 Hk1 Hk2 Hc. apply flat_lt_cases in Hc; [|done..].
        destruct Hc as [Hc|[-> ->]]; [by apply HP|]. split; [lra|]. intros. lia.
  - exists m, a, b. split; [done|]. cbn [fst snd] in HP. destruct HP as [(-> & HP)|(Ha & Hb & _ & _ & _ & HP)].
    + destruct Hex as (k1 & k2 & Hk1 & Hk2 & Hgt). specialize (HP k1 k2 Hk1 Hk2 ltac:(by apply flat_lt)). lra.
    + split; [done|]. split; [done|]. intros k1 k2 Hk1 Hk2. apply HP; [done..|by apply flat_lt].
Qed.

(** Disjoint windows: strides at least the window size. *)
Lemma pool_inj ii ij pi pj s1 s2 i j k1 k2 i' j' k1' k2' : pool_shape ii ij pi pj s1 s2 -> pi <= s1 -> pj <= s2 ->
  i < positions ii pi s1 -> j < positions ij pj s2 -> k1 < pi -> k2 < pj -> i' < positions ii pi s1 -> j' < positions ij pj s2 -> k1' < pi -> k2' < pj ->
  (i * s1 + k1) * ij + (j * s2 + k2) = (i' * s1 + k1') * ij + (j' * s2 + k2') -> (i = i' /\ j = j') /\ k1 = k1' /\ k2 = k2'.
Proof.
  intros Hs H1 H2 Hi Hj Hk1 Hk2 Hi' Hj' Hk1' Hk2' E.
  pose proof (pool_lt ii ij pi pj s1 s2 i j k1 k2 Hs Hi Hj Hk1 Hk2) as [_ L1]. pose proof (pool_lt ii ij pi pj s1 s2 i' j' k1' k2' Hs Hi' Hj' Hk1' Hk2') as [_ L2].
  apply flat_inj in E; [|done..]. destruct E as [E1 E2]. apply flat_inj in E1; [|lia..]. apply flat_inj in E2; [|lia..]. tauto.
Qed.
Lemma window_inj ii ij pi pj s1 s2 i j k1 k2 k1' k2' : pool_shape ii ij pi pj s1 s2 ->
  i < positions ii pi s1 -> j < positions ij pj s2 -> k1 < pi -> k2 < pj -> k1' < pi -> k2' < pj ->
  (i * s1 + k1) * ij + (j * s2 + k2) = (i * s1 + k1') * ij + (j * s2 + k2') -> k1 = k1' /\ k2 = k2'.
Proof.
  intros Hs Hi Hj Hk1 Hk2 Hk1' Hk2' E.
  pose proof (pool_lt ii ij pi pj s1 s2 i j k1 k2 Hs Hi Hj Hk1 Hk2) as [_ L1]. pose proof (pool_lt ii ij pi pj s1 s2 i j k1' k2' Hs Hi Hj Hk1' Hk2') as [_ L2].
  apply flat_inj in E; [|done..]. lia.
Qed.

(** the window-by-window overwriting loop *)
Lemma pool_bp_loop {T} ii ij pi pj s1 s2 (n : nat) body (Q : T -> Prop) (V : nat -> nat -> (nat -> nat -> R) -> Prop) (ie : list R) (t : T) :
  pool_shape ii ij pi pj s1 s2 -> pi <= s1 -> pj <= s2 -> length ie = ii * ij -> Q t ->
  let H := positions ii pi s1 in let W := positions ij pj s2 in
  (forall i j l t, i < H -> j < W -> length l = ii * ij -> Q t -> exists l' t' v, body i j (l, t) = Some (l', t') /\ Q t' /\ V i j v /\ length l' = ii * ij /\
     (forall k1 k2, k1 < pi -> k2 < pj -> el l' ((i * s1 + k1) * ij + (j * s2 + k2)) = v k1 k2) /\
     (forall q, (forall k1 k2, k1 < pi -> k2 < pj -> q <> (i * s1 + k1) * ij + (j * s2 + k2)) -> el l' q = el l q)) ->
  exists l' t', for_loop H 0 (fun i => for_loop W 0 (body i)) (ie, t) = Some (l', t') /\ length l' = ii * ij /\
    (forall i j, i < H -> j < W -> exists v, V i j v /\ forall k1 k2, k1 < pi -> k2 < pj -> el l' ((i * s1 + k1) * ij + (j * s2 + k2)) = v k1 k2) /\
    (forall q, (forall i j k1 k2, i < H -> j < W -> k1 < pi -> k2 < pj -> q <> (i * s1 + k1) * ij + (j * s2 + k2)) -> el l' q = el ie q).
Proof.
  intros Hs Hp1 Hp2 Hl Ht H W Hb.
  destruct (for_loop_inv2 (fun c (st : list R * T) => length st.1 = ii * ij /\ Q st.2 /\
     (forall i j, i < H -> j < W -> i * W + j < c -> exists v, V i j v /\ forall k1 k2, k1 < pi -> k2 < pj -> el st.1 ((i * s1 + k1) * ij + (j * s2 + k2)) = v k1 k2) /\
     (forall q, (forall i j k1 k2, i < H -> j < W -> i * W + j < c -> k1 < pi -> k2 < pj -> q <> (i * s1 + k1) * ij + (j * s2 + k2)) -> el st.1 q = el ie q))
    body H W 0 0 (ie, t)) as ((l' & t') & E & L & _ & H1 & H2).
  - split; [done|]. split; [done|]. split; [intros; lia|done].
  - intros r s (l & u) Hr Hs' (Hll & Hu & H1 & H2). cbn [fst snd] in *. cbn [Nat.add].
    destruct (Hb r s l u Hr Hs' Hll Hu) as (l' & t' & v & E & Ht' & HV & Hl' & Hin & Hout). exists (l', t'). split; [done|]. cbn [fst snd]. split; [done|]. split; [done|]. split.
    + intros i j Hi Hj Hc. apply flat_lt_cases in Hc; [|done..]. destruct Hc as [Hc|[-> ->]]; [|by exists v].
      destruct (H1 i j Hi Hj Hc) as (w & HVw & Hw). exists w. split; [done|]. intros k1 k2 Hk1 Hk2. rewrite Hout; [by apply Hw|].
      intros k1' k2' Hk1' Hk2' Eq. assert ((i = r /\ j = s) /\ k1 = k1' /\ k2 = k2') as ((-> & ->) & _) by (by eapply (pool_inj ii ij pi pj s1 s2)). lia.
    + intros q Hq. rewrite Hout by (intros k1 k2 Hk1 Hk2; apply Hq; lia). apply H2. intros i j k1 k2 Hi Hj Hc Hk1 Hk2. apply Hq; lia.
  - exists l', t'. split; [done|]. split; [done|]. split.
    + intros i j Hi Hj. apply H1; [done..|by apply flat_lt].
    + intros q Hq. apply H2. intros. by apply Hq.
Qed.

(** Backward, windows not overlapping, values > -999999: inside each window exactly the first maximal position gets
    the output error and the others get 0; cells outside every window are untouched. *)
Theorem C28_max_backward_partial : forall ii ij pi pj s1 s2 p x oe ie, pool_shape ii ij pi pj s1 s2 -> pi <= s1 -> pj <= s2 ->
  length x = ii * ij -> length ie = ii * ij ->
  let H := positions ii pi s1 in let W := positions ij pj s2 in
  length oe = (H + 2 * p) * (W + 2 * p) ->
  (forall i j, i < H -> j < W -> exists k1 k2, k1 < pi /\ k2 < pj /\ (px ij s1 s2 x i j k1 k2 > -999999)%R) ->
  exists ie', max_pooling_back_prop x oe ii ij pi pj s1 s2 p ie = Some ie' /\ length ie' = length ie /\
    (forall i j, i < H -> j < W -> exists a b, first_max pi pj (px ij s1 s2 x i j) a b /\
       forall k1 k2, k1 < pi -> k2 < pj -> px ij s1 s2 ie' i j k1 k2 = if decide (k1 = a /\ k2 = b) then el oe ((p + i) * (W + 2 * p) + (p + j)) else 0%R) /\
    (forall q, (forall i j k1 k2, i < H -> j < W -> k1 < pi -> k2 < pj -> q <> (i * s1 + k1) * ij + (j * s2 + k2)) -> el ie' q = el ie q).
Proof.
  intros ii ij pi pj s1 s2 p x oe ie Hs Hp1 Hp2 Hx Hl H W Ho Hbig.
  unfold max_pooling_back_prop. destruct (pool_dims ii ij pi pj s1 s2 p Hs) as (-> & -> & -> & ->). cbn zeta. fold H W.
  match goal with |- context [for_loop H 0 (fun i => for_loop W 0 (@?body i)) (ie, ?t0)] =>
    destruct (pool_bp_loop ii ij pi pj s1 s2 0 body (fun t : R * nat * nat => (t.1.1 <= -999999)%R)
      (fun i j v => exists a b, first_max pi pj (px ij s1 s2 x i j) a b /\ forall k1 k2, v k1 k2 = if decide (k1 = a /\ k2 = b) then el oe ((p + i) * (W + 2 * p) + (p + j)) else 0%R) ie t0 Hs Hp1 Hp2 Hl) as (l' & t' & E & L & H1 & H2) end.
  - cbn. lra.
  - intros i j l ((m & a0) & b0) Hi Hj Hll Ht. cbn [fst snd] in *.
    destruct (scan_first_max pi pj (px ij s1 s2 x i j) (fun k1 k2 => rd x (pool_idx ij s1 s2 i j k1 k2)) m a0 b0) as (m' & a & b & E & Hf).
    + intros k1 k2 Hk1 Hk2. rewrite pool_idx_eq. apply rd_el. rewrite Hx. by apply (pool_lt ii ij pi pj).
    + destruct (Hbig i j Hi Hj) as (k1 & k2 & Hk1 & Hk2 & Hgt). exists k1, k2. split; [done|]. split; [done|]. lra.
    + unfold pool_scan. rewrite E. cbn [mbind option_bind fst snd].
      match goal with |- context [for_loop pi 0 (fun k1 => for_loop pj 0 (@?bd k1)) l] =>
        destruct (fill2 (ii * ij) pi pj 0 0 bd (fun k1 k2 => (i * s1 + k1) * ij + (j * s2 + k2)) (fun k1 k2 => if decide (k1 = a /\ k2 = b) then el oe ((p + i) * (W + 2 * p) + (p + j)) else 0%R) l) as (l' & E' & L' & F1 & F2) end.
      * intros k1 k2 c Hk1 Hk2 Hc. cbn beta. cbn [Nat.add]. rewrite pool_idx_eq. rewrite rd_el by (rewrite Ho, <- Nat.add_assoc; apply flat_lt; lia). cbn [mbind option_bind].
        rewrite <- Nat.add_assoc. destruct (decide (a = k1 /\ b = k2)) as [[-> ->]|Hne]; [by rewrite decide_True|by rewrite decide_False by naive_solver].
      * intros k1 k2 Hk1 Hk2. by apply (pool_lt ii ij pi pj).
      * intros k1 k2 k1' k2' Hk1 Hk2 Hk1' Hk2' Eq. by eapply (window_inj ii ij pi pj s1 s2 i j).
      * done.
      * rewrite E'. cbn [mbind option_bind]. exists l', ((-9999999)%R, a, b), (fun k1 k2 => if decide (k1 = a /\ k2 = b) then el oe ((p + i) * (W + 2 * p) + (p + j)) else 0%R).
        split; [done|]. split; [cbn; lra|]. split; [by exists a, b|]. split; [done|]. split; [done|]. done.
  - fold H W in E. rewrite E. cbn [mbind option_bind fst]. exists l'. split; [done|]. split; [congruence|]. split; [|done].
    intros i j Hi Hj. destruct (H1 i j Hi Hj) as (v & (a & b & Hf & Hv) & Hw). exists a, b. split; [done|]. intros k1 k2 Hk1 Hk2. unfold px. rewrite Hw by done. apply Hv.
Qed.
(** Overlapping windows: the later window overwrites the error sent by the earlier one. *)
Theorem C28_max_backward_refuted : exists x oe ie', pool_shape 1 3 1 2 1 1 /\ max_pooling_back_prop x oe 1 3 1 2 1 1 0 [0; 0; 0]%R = Some ie' /\
  first_max 1 2 (px 3 1 1 x 0 0) 0 1 /\ first_max 1 2 (px 3 1 1 x 0 1) 0 0 /\ el oe 0 = 5%R /\ el oe 1 = 7%R /\ el ie' 1 <> (5 + 7)%R.
Proof.
  exists [1; 2; 1]%R, [5; 7]%R, [0; 7; 0]%R. split; [by repeat split; lia|]. split.
  - unfold max_pooling_back_prop, pool_scan. assert (conv_ok 1 3 1 2 1 1 = true) as -> by done. cbn -[decide].
    repeat match goal with |- context [decide (?a > ?b)%R] =>
      lazymatch a with context [decide _] => fail | _ => lazymatch b with context [decide _] => fail | _ => destruct (decide (a > b)%R); try (exfalso; lra); cbn [fst snd] end end end.
    repeat first
      [ rewrite (decide_False (P := 0 = 0 /\ 1 = 0)) by lia | rewrite (decide_True (P := 0 = 0 /\ 1 = 1)) by lia
      | rewrite (decide_True (P := 0 = 0 /\ 0 = 0)) by lia | rewrite (decide_False (P := 0 = 0 /\ 0 = 1)) by lia
      | rewrite wr_Some by (cbn; lia); cbn [mbind option_bind insert list_insert fst snd]
      | match goal with |- context [decide (?a > ?b)%R] =>
          lazymatch a with context [decide _] => fail | _ => lazymatch b with context [decide _] => fail | _ => destruct (decide (a > b)%R); try (exfalso; lra); cbn [fst snd] end end end ].
    done.
  - assert (Hc : forall k, k < 2 -> k = 0 \/ k = 1) by lia. split; [|split; [|split; [done|split; [done|cbn; lra]]]].
    + split; [lia|]. split; [lia|]. intros k1 k2 H1 H2. assert (k1 = 0) as -> by lia. destruct (Hc k2 H2) as [-> | ->]; unfold px, el; cbn; split; intros; lra || lia.
    + split; [lia|]. split; [lia|]. intros k1 k2 H1 H2. assert (k1 = 0) as -> by lia. destruct (Hc k2 H2) as [-> | ->]; unfold px, el; cbn; split; intros; lra || lia.
Qed.

Theorem C28_average_forward : forall ii ij pi pj s1 s2 p x out, pool_shape ii ij pi pj s1 s2 -> length x = ii * ij ->
  let H := positions ii pi s1 in let W := positions ij pj s2 in
  length out = (H + 2 * p) * (W + 2 * p) ->
  exists out', average_pooling_feed_forward x out ii ij pi pj s1 s2 p = Some out' /\
    pooled H W p (fun i j y => y = mean pi pj (px ij s1 s2 x i j)) out out'.
Proof.
  intros ii ij pi pj s1 s2 p x out Hs Hx H W Ho. unfold average_pooling_feed_forward. destruct (pool_dims ii ij pi pj s1 s2 p Hs) as (-> & -> & -> & ->). cbn zeta. fold H W.
  match goal with |- context [for_loop H 0 (fun i => for_loop W 0 (@?body i)) out] => apply (pool_fill H W p body out (fun i j => mean pi pj (px ij s1 s2 x i j)) Ho) end.
  intros i j l Hi Hj Hl. cbn beta.
  assert (E : for_loop pi 0 (fun k1 => for_loop pj 0 (fun k2 sum => x0 ← rd x (pool_idx ij s1 s2 i j k1 k2); Some (sum + x0)%R)) 0%R = Some (sum2 pi pj (px ij s1 s2 x i j))).
  { destruct (for_loop_inv (fun k1 a => a = sumn k1 (fun k1 => sumn pj (px ij s1 s2 x i j k1))) (fun k1 => for_loop pj 0 (fun k2 sum => x0 ← rd x (pool_idx ij s1 s2 i j k1 k2); Some (sum + x0)%R)) pi 0 0%R) as (a & E & Ha).
    - done.
    - intros k1 a Hk1 ->. pose proof (for_loop_sum pj (fun k2 => rd x (pool_idx ij s1 s2 i j k1 k2)) (px ij s1 s2 x i j k1) (sumn k1 (fun k1 => sumn pj (px ij s1 s2 x i j k1)))) as E.
      unfold sum_loop in E. rewrite E; [eexists; split; [done|]; done|]. intros k2 Hk2. rewrite pool_idx_eq. apply rd_el. rewrite Hx. apply (pool_lt ii ij pi pj); done || lia.
    - rewrite E. f_equal. exact Ha. }
  rewrite E. cbn [mbind option_bind]. done.
Qed.
Theorem C28_average_backward_partial : forall ii ij pi pj s1 s2 p oe ie, pool_shape ii ij pi pj s1 s2 -> pi <= s1 -> pj <= s2 -> length ie = ii * ij ->
  let H := positions ii pi s1 in let W := positions ij pj s2 in
  length oe = (H + 2 * p) * (W + 2 * p) ->
  exists ie', average_pooling_back_prop ie oe ii ij pi pj s1 s2 p = Some ie' /\ length ie' = length ie /\
    (forall i j, i < H -> j < W -> forall k1 k2, k1 < pi -> k2 < pj -> px ij s1 s2 ie' i j k1 k2 = (el oe ((p + i) * (W + 2 * p) + (p + j)) / INR (pi * pj))%R) /\
    (forall q, (forall i j k1 k2, i < H -> j < W -> k1 < pi -> k2 < pj -> q <> (i * s1 + k1) * ij + (j * s2 + k2)) -> el ie' q = el ie q).
Proof.
  intros ii ij pi pj s1 s2 p oe ie Hs Hp1 Hp2 Hl H W Ho.
  unfold average_pooling_back_prop. destruct (pool_dims ii ij pi pj s1 s2 p Hs) as (-> & -> & -> & ->). cbn zeta. fold H W.
  set (e := fun i j => (el oe ((p + i) * (W + 2 * p) + (p + j)) / INR (pi * pj))%R).
  set (body := fun i j => for_loop pi 0 (fun k1 => for_loop pj 0 (fun k2 ie0 => e0 ← rd oe ((p + i) * (W + 2 * p) + p + j); wr ie0 (pool_idx ij s1 s2 i j k1 k2) (1 / INR (pi * pj) * e0)%R))).
  destruct (pool_bp_loop ii ij pi pj s1 s2 0 (fun i j (st : list R * unit) => l ← body i j st.1; Some (l, tt)) (fun _ => True)
      (fun i j v => v = fun _ _ => e i j) ie tt Hs Hp1 Hp2 Hl I) as (l' & t' & E & L & H1 & H2).
  - intros i j l [] Hi Hj Hll _. cbn [fst].
    destruct (fill2 (ii * ij) pi pj 0 0 (fun k1 k2 ie0 => e0 ← rd oe ((p + i) * (W + 2 * p) + p + j); wr ie0 (pool_idx ij s1 s2 i j k1 k2) (1 / INR (pi * pj) * e0)%R) (fun k1 k2 => (i * s1 + k1) * ij + (j * s2 + k2)) (fun _ _ => e i j) l) as (l' & E' & L' & F1 & F2).
    + intros k1 k2 c Hk1 Hk2 Hc. cbn [Nat.add]. rewrite pool_idx_eq. rewrite <- Nat.add_assoc. rewrite rd_el by (rewrite Ho; apply flat_lt; lia). cbn [mbind option_bind].
      f_equal. unfold e. unfold Rdiv. lra.
    + intros k1 k2 Hk1 Hk2. by apply (pool_lt ii ij pi pj).
    + intros k1 k2 k1' k2' Hk1 Hk2 Hk1' Hk2' Eq. by eapply (window_inj ii ij pi pj s1 s2 i j).
    + done.
    + unfold body. rewrite E'. cbn [mbind option_bind]. exists l', tt, (fun _ _ => e i j). done.
  - exists l'. fold H W in E. split; [|split; [congruence|split; [|done]]].
    + rewrite (for_loop_pair (fun i => for_loop W 0 (body i)) (fun _ t => Some t)) in E.
      2:{ intros i a [] Hi. rewrite (for_loop_pair (body i) (fun _ t => Some t)). 2:{ intros j a' [] Hj. cbn [fst]. by destruct (body i j a'). }
          destruct (for_loop W 0 (body i) a); cbn [mbind option_bind]; [|done]. by destruct (for_loop W 0 (fun _ t => Some t) ()) as [[]|] eqn:E0; [|exfalso; clear -E0; revert E0; generalize 0; induction W; intros; cbn in *; [done|eauto]]. }
      fold body. change (fun i : nat => for_loop W 0 (fun j : nat => for_loop pi 0 (fun k1 : nat => for_loop pj 0 (fun (k2 : nat) (ie0 : list R) => e0 ← rd oe ((p + i) * (W + 2 * p) + p + j); wr ie0 (pool_idx ij s1 s2 i j k1 k2) (1 / INR (pi * pj) * e0)%R)))) with (fun i => for_loop W 0 (body i)).
      destruct (for_loop H 0 (fun i => for_loop W 0 (body i)) ie) as [a|]; cbn [mbind option_bind] in E; [|done].
      destruct (for_loop H 0 (fun _ t => Some t) ()); cbn [mbind option_bind] in E; [|done]. congruence.
    + intros i j Hi Hj k1 k2 Hk1 Hk2. destruct (H1 i j Hi Hj) as (v & -> & Hv). unfold px. rewrite Hv by done. done.
Qed.
Theorem C28_average_backward_refuted : exists oe ie', pool_shape 1 3 1 2 1 1 /\ average_pooling_back_prop [0; 0; 0]%R oe 1 3 1 2 1 1 0 = Some ie' /\
  el oe 0 = 4%R /\ el oe 1 = 8%R /\ el ie' 1 <> (4 / 2 + 8 / 2)%R.
Proof.
  exists [4; 8]%R, [1 / INR 2 * 4; 1 / INR 2 * 8; 1 / INR 2 * 8]%R. split; [by repeat split; lia|]. split; [done|]. split; [done|]. split; [done|]. unfold el. cbn. lra.
Qed.
Example C28_example : pool_shape 4 4 2 2 2 2 /\ positions 4 2 2 = 2.
Proof. split; [by repeat split; lia|done]. Qed.

Print Assumptions C28_max_backward_partial.
