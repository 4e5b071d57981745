(** C20: clipping a vector. *)
From Verif Require Import BaseLemmas Clip_Model.
Open Scope nat_scope.

(** Specification: y is x limited to the interval. *)
Definition limited {V} (ltb : V -> V -> bool) (minimum maximum x y : V) : Prop :=
  (ltb x minimum = true -> y = minimum) /\ (ltb maximum x = true -> y = maximum) /\
  (ltb x minimum = false -> ltb maximum x = false -> y = x).

(** C20.  For every comparison that is irreflexive and transitive (IEEE "<" is, also with NaN present), all
    vectors and bounds with not (maximum < minimum): both functions succeed, keep the length, put in every position the entry
    limited to the interval, so that no entry is below the minimum or above the maximum; entries past [dimension] are kept. *)
Theorem C20_clip_vector : forall (V : Type) (ltb : V -> V -> bool) (vector : list V) (minimum maximum : V) (n : nat),
  (forall x, ltb x x = false) -> (forall x y z, ltb x y = true -> ltb y z = true -> ltb x z = true) ->
  ltb maximum minimum = false -> n <= length vector ->
  exists out, clip_vector ltb vector minimum maximum n = Some out /\ length out = length vector /\
    (forall k x y, vector !! k = Some x -> out !! k = Some y ->
      (k < n -> limited ltb minimum maximum x y /\ ltb y minimum = false /\ ltb maximum y = false) /\ (n <= k -> y = x)).
Proof.
  intros V ltb v mn mx n Hirr Htr Hmm Hn. unfold clip_vector. rewrite Hmm.
  set (c := fun x => if ltb x mn then mn else if ltb mx x then mx else x).
  destruct (for_loop_inv (fun i s => length s = length v /\ forall k x, v !! k = Some x -> s !! k = Some (if decide (k < i) then c x else x))
    (fun i v => x ← rd v i; if ltb x mn then wr v i mn else if ltb mx x then wr v i mx else Some v) n 0 v) as (out & E & Hl & Ho).
  - split; [done|]. intros k x Hk. rewrite decide_False by lia. done.
  - intros i s Hi [Hls Hs]. destruct (lookup_lt_is_Some_2 v i) as [x Hx]; [lia|].
    pose proof (Hs i x Hx) as Hsx. rewrite decide_False in Hsx by lia. unfold rd. rewrite Hsx. cbn [mbind option_bind].
    assert (Hstep : forall s', s' = <[i := c x]> s -> length s' = length v /\ forall k x, v !! k = Some x -> s' !! k = Some (if decide (k < S i) then c x else x)).
    { intros s' ->. split; [by rewrite insert_length|]. intros k y Hy. destruct (decide (k = i)) as [->|Hne].
      - rewrite list_lookup_insert by lia. rewrite decide_True by lia. congruence.
      - rewrite list_lookup_insert_ne by done. rewrite (Hs k y Hy). destruct (decide (k < i)), (decide (k < S i)); done || lia. }
    destruct (ltb x mn) eqn:E1; [|destruct (ltb mx x) eqn:E2].
    + rewrite wr_Some by lia. eexists. split; [done|]. apply Hstep. unfold c. by rewrite E1.
    + rewrite wr_Some by lia. eexists. split; [done|]. apply Hstep. unfold c. by rewrite E1, E2.
    + eexists. split; [done|]. apply Hstep. unfold c. rewrite E1, E2. by rewrite list_insert_id.
  - exists out. split; [done|]. split; [done|]. intros k x y Hx Hy. rewrite (Ho k x Hx) in Hy. injection Hy as <-. cbn [plus].
    split; intros Hk.
    + rewrite decide_True by done. unfold limited, c. destruct (ltb x mn) eqn:E1.
      * split_and!; try done. intros E2. specialize (Htr _ _ _ E2 E1). congruence.
      * destruct (ltb mx x) eqn:E2; split_and!; try done.
    + by rewrite decide_False by lia.
Qed.
Print Assumptions C20_clip_vector.

Theorem C20_copy_clipped_vector : forall (V : Type) (ltb : V -> V -> bool) (vector output : list V) (minimum maximum : V) (n : nat),
  (forall x, ltb x x = false) -> (forall x y z, ltb x y = true -> ltb y z = true -> ltb x z = true) ->
  ltb maximum minimum = false -> n <= length vector -> n <= length output ->
  exists out, copy_clipped_vector ltb vector output maximum minimum n = Some out /\ length out = length output /\
    (forall k x y, k < n -> vector !! k = Some x -> out !! k = Some y ->
       limited ltb minimum maximum x y /\ ltb y minimum = false /\ ltb maximum y = false) /\
    (forall k, n <= k -> out !! k = output !! k).
Proof.
  intros V ltb v o mn mx n Hirr Htr Hmm Hn Hno. unfold copy_clipped_vector. rewrite Hmm.
  set (c := fun x => if ltb x mn then mn else if ltb mx x then mx else x).
  destruct (for_loop_inv (fun i s => length s = length o /\ (forall k x, k < i -> v !! k = Some x -> s !! k = Some (c x)) /\ forall k, i <= k -> s !! k = o !! k)
    (fun i out => x ← rd v i; if ltb x mn then wr out i mn else if ltb mx x then wr out i mx else wr out i x) n 0 o) as (out & E & Hl & Ho & Hr).
  - split; [done|]. split; [lia|done].
  - intros i s Hi (Hls & Hs & Hr). destruct (lookup_lt_is_Some_2 v i) as [x Hx]; [lia|]. unfold rd. rewrite Hx. cbn [mbind option_bind].
    exists (<[i := c x]> s). split.
    + unfold c. destruct (ltb x mn); [|destruct (ltb mx x)]; by rewrite wr_Some by lia.
    + split; [by rewrite insert_length|]. split.
      * intros k y Hk Hy. destruct (decide (k = i)) as [->|]; [rewrite list_lookup_insert by lia; congruence|].
        rewrite list_lookup_insert_ne by done. apply Hs; [lia|done].
      * intros k Hk. rewrite list_lookup_insert_ne by lia. apply Hr. lia.
  - exists out. split; [done|]. split; [done|]. split; [|exact Hr]. intros k x y Hk Hx Hy. rewrite (Ho k x Hk Hx) in Hy. injection Hy as <-.
    unfold limited, c. destruct (ltb x mn) eqn:E1.
    + split_and!; try done. intros E2. specialize (Htr _ _ _ E2 E1). congruence.
    + destruct (ltb mx x) eqn:E2; split_and!; try done.
Qed.

(** Clipping a second time changes nothing. *)
Theorem C20_clip_idempotent : forall (V : Type) (ltb : V -> V -> bool) (vector out : list V) (minimum maximum : V) (n : nat),
  (forall x, ltb x x = false) -> (forall x y z, ltb x y = true -> ltb y z = true -> ltb x z = true) -> n <= length vector ->
  clip_vector ltb vector minimum maximum n = Some out -> clip_vector ltb out minimum maximum n = Some out.
Proof.
  intros V ltb v out mn mx n Hirr Htr Hn E. assert (Hmm : ltb mx mn = false). { unfold clip_vector in E. by destruct (ltb mx mn). }
  destruct (C20_clip_vector V ltb v mn mx n Hirr Htr Hmm Hn) as (o1 & E1 & L1 & H1). rewrite E in E1. injection E1 as <-.
  destruct (C20_clip_vector V ltb out mn mx n Hirr Htr Hmm ltac:(lia)) as (o2 & E2 & L2 & H2). rewrite E2. f_equal. symmetry.
  apply list_eq. intros k. destruct (decide (k < length out)) as [Hk|Hk].
  - destruct (lookup_lt_is_Some_2 out k Hk) as [y Hy]. destruct (lookup_lt_is_Some_2 o2 k) as [z Hz]; [lia|]. destruct (lookup_lt_is_Some_2 v k) as [x Hx]; [lia|].
    rewrite Hy, Hz. f_equal. destruct (H1 k x y Hx Hy) as [A B]. destruct (H2 k y z Hy Hz) as [C D].
    destruct (decide (k < n)).
    + destruct (A ltac:(lia)) as (_ & ? & ?). destruct (C ltac:(lia)) as ((_ & _ & F) & _). symmetry. by apply F.
    + symmetry. apply D. lia.
  - rewrite !lookup_ge_None_2 by lia. done.
Qed.

(** maximum < minimum: both exit. *)
Theorem C20_bad_bounds_exit : forall (V : Type) (ltb : V -> V -> bool) v o mn mx n, ltb mx mn = true ->
  clip_vector ltb v mn mx n = None /\ copy_clipped_vector ltb v o mx mn n = None.
Proof. intros V ltb v o mn mx n H. unfold clip_vector, copy_clipped_vector. by rewrite H. Qed.

Example C20_example : clip_vector Z.ltb [5; -7; 2; 9]%Z (-1)%Z 4%Z 3 = Some [4; -1; 2; 9]%Z.
Proof. done. Qed.
