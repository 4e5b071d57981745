(** Property theorems C04 (quick_sort), C05 (sort), C06 (argmax): src/utils.c. *)
From Verif Require Import BaseLemmas OrderLemmas Sort_Spec Sort_Model Sort_Proofs.
Open Scope nat_scope.

(** C04.  On every segment whose indices point into A, quick_sort terminates without leaving the
    arrays, sorts the segment by value, permutes it and changes nothing outside it. *)
Theorem C04_quick_sort_sorts :
  forall (V : Type) (ltb : V -> V -> bool) (A : list V) (I : list nat) (lo hi fuel : nat),
    strict_weak_order ltb -> indices_valid A I lo hi -> hi + 1 - lo < fuel ->
    exists I', quick_sort ltb fuel A I lo hi = Some I' /\
      ascending ltb A I' lo hi /\ I' ≡ₚ I /\
      take lo I' = take lo I /\ drop (hi + 1) I' = drop (hi + 1) I.
Proof.
  intros V ltb A I lo hi fuel Hs [Hhi HV] Hf.
  destruct (quick_sort_ok ltb Hs A fuel I lo hi) as (I' & E & Hsp & Hso); [|done|done|].
  { intros k Hk. destruct (HV k Hk) as (a & Ha & Hlt). unfold val. rewrite Ha. by apply lookup_lt_is_Some_2. }
  destruct (seg_perm_take_drop lo hi I I' Hsp) as (P & T & D). exists I'. split_and!; done.
Qed.
Print Assumptions C04_quick_sort_sorts.

(** C04.  The documented call on a whole array of n indices. *)
Theorem C04_quick_sort_whole_array :
  forall (V : Type) (ltb : V -> V -> bool) (A : list V) (I : list nat),
    strict_weak_order ltb -> (forall a, a ∈ I -> a < length A) ->
    exists I', quick_sort_array ltb A I = Some I' /\ I' ≡ₚ I /\ ascending ltb A I' 0 (length I - 1).
Proof.
  intros V ltb A I Hs HV. unfold quick_sort_array. destruct (length I) as [|h] eqn:El.
  - exists I. split; [done|]. split; [done|]. apply nil_length_inv in El as ->. intros a b u v _ _ H. done.
  - destruct (C04_quick_sort_sorts V ltb A I 0 h (S (S h)) Hs) as (I' & E & Ha & P & _).
    + split; [lia|]. intros k Hk. destruct (lookup_lt_is_Some_2 I k) as [a Ha]; [lia|]. exists a. split; [done|].
      apply HV. by eapply elem_of_list_lookup_2.
    + lia.
    + exists I'. split_and!; [done..|]. by replace (S h - 1) with h by lia.
Qed.
Print Assumptions C04_quick_sort_whole_array.

Example C04_case : quick_sort_array Z.ltb [5;1;4;1;-3]%Z [0;1;2;3;4] = Some [4;3;1;2;0] /\
  indices_valid [5;1;4;1;-3]%Z [0;1;2;3;4] 0 4 /\ strict_weak_order Z.ltb.
Proof.
  split; [vm_compute; reflexivity|]. split; [|exact Zltb_swo]. split; [cbn; lia|].
  intros k Hk. exists k. destruct k as [|[|[|[|[|]]]]]; cbn; split; try done; lia.
Qed.

(** C05, permutation part: sort() terminates, stays in bounds, loses no index and changes nothing
    outside the segment.  Missing: the order, refuted below. *)
Theorem C05_sort_keeps_all_indices_partial :
  forall (den : Z) (values : list Z) (indices : list nat) (low high fuel : nat),
    high < length indices -> high < length values -> high + 1 - low < fuel ->
    exists indices', merge_sort den fuel values indices low high = Some indices' /\
      indices' ≡ₚ indices /\ take low indices' = take low indices /\
      drop (high + 1) indices' = drop (high + 1) indices.
Proof. intros den values indices low high fuel H1 H2 H3. exact (merge_sort_perm den fuel values indices low high H1 H2 H3). Qed.
Print Assumptions C05_sort_keeps_all_indices_partial.

Example C05_hyps : 2 < length [0;1;2] /\ 2 < length [3;1;2]%Z /\ 2 + 1 - 0 < 4. Proof. cbn; lia. Qed.

(** C05 is false: (a) three whole numbers 3,1,2: after the halves are sorted, merge compares
    values[position] instead of values[indices[position]]; *)
Theorem C05_sort_refuted_positions :
  exists values indices, sort_array 1 values [0;1;2] = Some indices /\ values = [3;1;2]%Z /\
    ~ ascending Z.ltb values indices 0 2.
Proof.
  exists [3;1;2]%Z, [2;1;0]. split; [vm_compute; reflexivity|]. split; [done|].
  intros H. specialize (H 0 1 2%Z 1%Z). cbn in H. discriminate H; [lia|lia|done|done].
Qed.
Print Assumptions C05_sort_refuted_positions.

(** (b) two fractions 0.9 and 0.1 (den = 10): the copies are ints, so both compare as 0. *)
Theorem C05_sort_refuted_truncation :
  exists values indices, sort_array 10 values [0;1] = Some indices /\ values = [9;1]%Z /\
    ~ ascending Z.ltb values indices 0 1.
Proof.
  exists [9;1]%Z, [0;1]. split; [vm_compute; reflexivity|]. split; [done|].
  intros H. specialize (H 0 1 9%Z 1%Z). cbn in H. discriminate H; [lia|lia|done|done].
Qed.
Print Assumptions C05_sort_refuted_truncation.

(** C06.  argmax returns the first position of a maximum; -1 exactly for the empty vector. *)
Theorem C06_argmax_first_maximum :
  forall (V : Type) (ltb : V -> V -> bool) (v : list V),
    strict_weak_order ltb -> v <> [] ->
    exists b m, argmax ltb v = Z.of_nat b /\ v !! b = Some m /\
      (forall k u, v !! k = Some u -> ltb m u = false) /\
      (forall k u, k < b -> v !! k = Some u -> ltb u m = true).
Proof.
  intros V ltb v Hs Hv. destruct (argmax_ok ltb Hs v Hv) as (b & m & E & H1 & _ & H3 & H4).
  exists b, m. split_and!; [done|done| |done]. intros k u Hu. apply (H3 k u); [by eapply lookup_lt_Some|done].
Qed.
Print Assumptions C06_argmax_first_maximum.

Theorem C06_argmax_empty : forall (V : Type) (ltb : V -> V -> bool) (v : list V),
  argmax ltb v = (-1)%Z <-> v = [].
Proof. intros V ltb v. split; [|by intros ->]. destruct v as [|x l]; [done|]. unfold argmax. lia. Qed.
Print Assumptions C06_argmax_empty.

Example C06_case : argmax Z.ltb [3;7;-1;7]%Z = 1%Z. Proof. reflexivity. Qed.
