(** C07: the indexed max-heap used by the ranked replay buffer (src/utils.c:1298-1364). *)
From Verif Require Import BaseLemmas OrderLemmas Sort_Spec Sort_Model Sort_Proofs Heap_Model Heap_Spec Heap_Proofs.
Open Scope nat_scope.

Lemma seg_perm_same n ind ind' : n <= length ind -> 0 < n -> seg_perm 0 (n - 1) ind ind' -> same_slots n ind ind'.
Proof.
  intros Hl Hn H. pose proof (seg_perm_perm _ _ _ _ H) as HP.
  assert (Hd : drop n ind' = drop n ind).
  { apply list_eq. intros k. rewrite !lookup_drop. apply (seg_perm_outside 0 (n - 1) ind ind' H). lia. }
  split; [|done]. rewrite <- (take_drop n ind), <- (take_drop n ind') in HP. rewrite Hd in HP. by apply Permutation_app_inv_r in HP.
Qed.

Lemma tabs_length {V} (values : list V) ind rev n : inverse_tables values ind rev n -> n <= length ind.
Proof.
  intros HT. destruct (decide (n = 0)); [lia|]. destruct (HT (n - 1)) as (a & Ha & _); [lia|].
  apply lookup_lt_Some in Ha. lia.
Qed.

(** C07 (sift up).  If position i of a heap was raised, max_heapify_up makes it a heap again, keeps
    the tables inverse and the same slots, and never leaves the arrays. *)
Theorem C07_sift_up_restores_heap :
  forall (V : Type) (ltb : V -> V -> bool) (values : list V) (ind rev : list nat) (n i fuel : nat),
    strict_weak_order ltb -> inverse_tables values ind rev n -> i < n -> i < fuel ->
    heap_but_raised ltb values ind n i ->
    exists ind' rev', max_heapify_up ltb values fuel ind rev i = Some (ind', rev') /\
      is_max_heap ltb values ind' n /\ inverse_tables values ind' rev' n /\ same_slots n ind ind'.
Proof.
  intros V ltb values ind rev n i fuel Hs HT Hi Hf HU.
  destruct (heapify_up_ok ltb Hs values n fuel ind rev i HT Hi Hf HU) as (ind' & rev' & E & (S1 & _ & T1 & _) & Hh & _).
  exists ind', rev'. split; [done|]. split; [by apply heap_spec|]. split; [done|].
  apply seg_perm_same; [by eapply tabs_length|lia|done].
Qed.
Print Assumptions C07_sift_up_restores_heap.

(** C07 (sift down). *)
Theorem C07_sift_down_restores_heap :
  forall (V : Type) (ltb : V -> V -> bool) (values : list V) (ind rev : list nat) (n i fuel : nat),
    strict_weak_order ltb -> inverse_tables values ind rev n -> i < n -> n - i <= fuel ->
    heap_but_lowered ltb values ind n i ->
    exists ind' rev', max_heapify ltb values fuel ind rev n i = Some (ind', rev') /\
      is_max_heap ltb values ind' n /\ inverse_tables values ind' rev' n /\ same_slots n ind ind'.
Proof.
  intros V ltb values ind rev n i fuel Hs HT Hi Hf HU.
  destruct (heapify_ok ltb Hs values n fuel ind rev i HT Hi Hf HU) as (ind' & rev' & E & (S1 & _ & T1 & _) & Hh).
  exists ind', rev'. split; [done|]. split; [by apply heap_spec|]. split; [done|].
  apply seg_perm_same; [by eapply tabs_length|lia|done].
Qed.
Print Assumptions C07_sift_down_restores_heap.

(** C07 (removal).  Removing position i of a heap of n entries moves exactly that slot to position
    n-1 and leaves a heap of the other n-1 entries. *)
Theorem C07_remove_keeps_heap :
  forall (V : Type) (ltb : V -> V -> bool) (values : list V) (ind rev : list nat) (n i : nat),
    strict_weak_order ltb -> inverse_tables values ind rev n -> i < n -> is_max_heap ltb values ind n ->
    exists ind' rev', remove_ith ltb values ind rev n i = Some (ind', rev') /\
      ind' !! (n - 1) = ind !! i /\ is_max_heap ltb values ind' (n - 1) /\
      inverse_tables values ind' rev' n /\ same_slots n ind ind'.
Proof.
  intros V ltb values ind rev n i Hs HT Hi HH.
  destruct (remove_ith_ok ltb Hs values n ind rev i HT Hi) as (ind' & rev' & E & (S1 & _ & T1 & _) & Hh & Hl); [by apply heap_spec|].
  exists ind', rev'. split; [done|]. split; [done|]. split; [by apply heap_spec|]. split; [done|].
  apply seg_perm_same; [by eapply tabs_length|lia|done].
Qed.
Print Assumptions C07_remove_keeps_heap.

(** A position outside the heap is left alone. *)
Theorem C07_remove_outside_is_noop :
  forall (V : Type) (ltb : V -> V -> bool) (values : list V) (ind rev : list nat) (n i : nat),
    n <= i -> remove_ith ltb values ind rev n i = Some (ind, rev).
Proof. intros. unfold remove_ith. by rewrite decide_True. Qed.
Print Assumptions C07_remove_outside_is_noop.

Ltac small_k k := destruct k as [|[|[|[|k]]]].

Example C07_up_case :
  max_heapify_up Z.ltb [1;5;3;9]%Z 4 [1;0;2;3] [1;0;2;3] 3 = Some ([3;1;2;0], [3;1;2;0]) /\
  inverse_tables [1;5;3;9]%Z [1;0;2;3] [1;0;2;3] 4 /\ heap_but_raised Z.ltb [1;5;3;9]%Z [1;0;2;3] 4 3.
Proof.
  split; [vm_compute; reflexivity|]. split.
  - intros k Hk. small_k k; [exists 1|exists 0|exists 2|exists 3|lia]; cbn; split_and!; done || lia.
  - split.
    + intros k Hk Hne u v Hu Hv. small_k k; try lia; vm_compute in Hu, Hv; simplify_eq; done.
    + intros k Hk Hp. pose proof (par_child k 3). unfold par in *. lia.
Qed.

Example C07_down_and_remove_case :
  max_heapify Z.ltb [1;5;3;4]%Z 4 [0;1;2;3] [0;1;2;3] 4 0 = Some ([1;3;2;0], [3;0;2;1]) /\
  heap_but_lowered Z.ltb [1;5;3;4]%Z [0;1;2;3] 4 0 /\
  remove_ith Z.ltb [9;5;3;4]%Z [0;1;2;3] [0;1;2;3] 4 0 = Some ([1;3;2;0], [3;0;2;1]) /\
  is_max_heap Z.ltb [9;5;3;4]%Z [0;1;2;3] 4 /\ inverse_tables [9;5;3;4]%Z [0;1;2;3] [0;1;2;3] 4.
Proof.
  split; [vm_compute; reflexivity|]. split; [|split; [vm_compute; reflexivity|split]].
  - split.
    + intros k Hk Hne u v Hu Hv. small_k k; try lia; vm_compute in Hu, Hv; simplify_eq; vm_compute in Hne; done.
    + intros k Hk Hp. lia.
  - intros k u v Hk Hu Hv. small_k k; try lia; vm_compute in Hu, Hv; simplify_eq; done.
  - intros k Hk. small_k k; [exists 0|exists 1|exists 2|exists 3|lia]; cbn; split_and!; done || lia.
Qed.
