(** Property theorems C01, C02, C03: shuffling (src/utils.c:173-524). *)
From Verif Require Import BaseLemmas Shuffle_Model Shuffle_Spec Shuffle_Proofs.
Open Scope nat_scope.

(** C01.  For every array, every n not larger than it and every behaviour of rand(): the shuffle
    does not leave the array, permutes its first n entries and leaves the others alone. *)
Theorem C01_shuffle_permutes :
  forall (A : Type) (rmax : Z) (rand : nat -> Z) (m : list A) (n : nat),
    rand_ok rmax rand -> n <= length m ->
    exists m', shuffle_matrix rmax rand m n = Some m' /\
               take n m' ≡ₚ take n m /\ drop n m' = drop n m.
Proof.
  intros A rmax rand m n Hr Hn.
  destruct (shuffle_matrix_ok rmax rand Hr m n Hn) as (m' & p & E & Hp & Ha).
  destruct (aligned_perm n p m m' Hn Hp Ha) as (H1 & H2 & _). eauto.
Qed.
Print Assumptions C01_shuffle_permutes.

Example C01_case :
  shuffle_matrix 32767 (fun k => nth k [30000; 2; 20000]%Z 0%Z) [10;11;12;13;14] 4 = Some [13;11;10;12;14].
Proof. vm_compute. reflexivity. Qed.

(** C01.  Every permutation of the array can come out, as long as n(n-1) <= RAND_MAX. *)
Theorem C01_every_permutation_reachable :
  forall (A : Type) (rmax : Z) (m m' : list A),
    m ≡ₚ m' -> (Z.of_nat (length m) * (Z.of_nat (length m) - 1) <= rmax)%Z ->
    exists rand, rand_ok rmax rand /\ shuffle_matrix rmax rand m (length m) = Some m'.
Proof. intros A rmax m m' Hp Hb. exact (shuffle_reach rmax m m' (length m) eq_refl Hp Hb). Qed.
Print Assumptions C01_every_permutation_reachable.

Example C01_reach_hyps : [1;2;3] ≡ₚ [3;1;2] /\ (3 * (3 - 1) <= 32767)%Z.
Proof. split; [|lia]. by rewrite (Permutation_app_comm [1;2] [3]). Qed.

(** C01 without the size bound is false: with glibc's RAND_MAX = 2^31-1 and 99999 distinct rows,
    no rand() sequence brings the last row to the front. *)
Theorem C01_every_permutation_reachable_refuted :
  exists (m m' : list nat), m ≡ₚ m' /\
    forall rand, rand_ok 2147483647 rand -> shuffle_matrix 2147483647 rand m (length m) <> Some m'.
Proof.
  assert (exists k, Z.of_nat k = 99998%Z) as [k Hk].
  { exists (Z.to_nat 99998). apply Z2Nat.id. lia. }
  exists (seq 0 k ++ [k]), ([k] ++ seq 0 k). split; [apply Permutation_app_comm|].
  intros rand Hr. apply shuffle_unreachable; [| | |done].
  - rewrite app_length, seq_length. cbn [length]. lia.
  - change [k] with (seq (0 + k) 1). rewrite <- seq_app. apply NoDup_seq.
  - rewrite app_length, seq_length. cbn [length]. rewrite (lookup_app_r (seq 0 k) [k]) by (rewrite seq_length; lia).
    rewrite seq_length. replace (k + 1 - 1 - k) with 0 by lia. done.
Qed.
Print Assumptions C01_every_permutation_reachable_refuted.

(** C02.  The two-array shuffles apply one permutation of the positions to both arrays. *)
Theorem C02_pairs_stay_aligned :
  forall (A B : Type) (rmax : Z) (rand : nat -> Z) (m : list A) (m1 : list B) (n : nat),
    rand_ok rmax rand -> n <= length m -> n <= length m1 ->
    exists m' m1' p, shuffle_matrices rmax rand m m1 n = Some (m', m1') /\
      permutation_of_positions n p /\
      reordered_by p m (take n m') /\ reordered_by p m1 (take n m1') /\
      drop n m' = drop n m /\ drop n m1' = drop n m1.
Proof.
  intros A B rmax rand m m1 n Hr Hn Hn1.
  destruct (shuffle_matrices_ok rmax rand Hr m m1 n Hn Hn1) as (m' & m1' & p & E & Hp & Ha & Ha1).
  destruct (aligned_perm n p m m' Hn Hp Ha) as (_ & D & R).
  destruct (aligned_perm n p m1 m1' Hn1 Hp Ha1) as (_ & D1 & R1).
  exists m', m1', p. split_and!; done.
Qed.
Print Assumptions C02_pairs_stay_aligned.

Example C02_case :
  shuffle_matrices 32767 (fun k => nth k [30000; 2; 20000]%Z 0%Z) [10;11;12;13] [20;21;22;23] 4
  = Some ([13;11;10;12], [23;21;20;22]).
Proof. vm_compute. reflexivity. Qed.

(** C02 for the variants with label vectors: the two matrices and the float vector stay aligned
    and no access is out of bounds.  Missing: the int vector(s), see the refutation below. *)
Theorem C02_float_int_vectors_partial :
  forall (A B C D : Type) rmax rand (m : list A) (m1 : list B) (f : list C) (v : list D) n,
    rand_ok rmax rand -> n <= length m -> n <= length m1 -> n <= length f -> n <= length v ->
    exists m' m1' f' v' p,
      shuffle_matrices_float_int_vectors rmax rand m m1 f v n = Some (m', m1', f', v') /\
      permutation_of_positions n p /\ reordered_by p m (take n m') /\
      reordered_by p m1 (take n m1') /\ reordered_by p f (take n f').
Proof.
  intros A B C D rmax rand m m1 f v n Hr H0 H1 H2 H3.
  destruct (shuffle_4_ok rmax rand Hr m m1 f v n H0 H1 H2 H3) as (m' & m1' & f' & v' & p & E & Hp & Ha & Ha1 & Ha2 & _).
  destruct (aligned_perm n p m m' H0 Hp Ha) as (_ & _ & R).
  destruct (aligned_perm n p m1 m1' H1 Hp Ha1) as (_ & _ & R1).
  destruct (aligned_perm n p f f' H2 Hp Ha2) as (_ & _ & R2).
  exists m', m1', f', v', p. split_and!; done.
Qed.
Print Assumptions C02_float_int_vectors_partial.

Theorem C02_float_int_int_vectors_partial :
  forall (A B C D E : Type) rmax rand (m : list A) (m1 : list B) (f : list C) (v : list D) (v2 : list E) n,
    rand_ok rmax rand -> n <= length m -> n <= length m1 -> n <= length f -> n <= length v ->
    n <= length v2 ->
    exists m' m1' f' v' v2' p,
      shuffle_matrices_float_int_int_vectors rmax rand m m1 f v v2 n = Some (m', m1', f', v', v2') /\
      permutation_of_positions n p /\ reordered_by p m (take n m') /\
      reordered_by p m1 (take n m1') /\ reordered_by p f (take n f').
Proof.
  intros A B C D E rmax rand m m1 f v v2 n Hr H0 H1 H2 H3 H4.
  destruct (shuffle_5_ok rmax rand Hr m m1 f v v2 n H0 H1 H2 H3 H4) as (m' & m1' & f' & v' & v2' & p & E0 & Hp & Ha & Ha1 & Ha2 & _).
  destruct (aligned_perm n p m m' H0 Hp Ha) as (_ & _ & R).
  destruct (aligned_perm n p m1 m1' H1 Hp Ha1) as (_ & _ & R1).
  destruct (aligned_perm n p f f' H2 Hp Ha2) as (_ & _ & R2).
  exists m', m1', f', v', v2', p. split_and!; done.
Qed.
Print Assumptions C02_float_int_int_vectors_partial.

(** C02 is false for the int label vectors: two samples with labels 100 and 200, one swap; the
    label 100 is lost and 200 appears twice (utils.c:269-270 overwrite v[i] and never v[j]). *)
Theorem C02_int_labels_refuted :
  exists rand, rand_ok 2147483647 rand /\
    exists m' m1' f' v',
      shuffle_matrices_float_int_vectors 2147483647 rand [1;2] [3;4] [5;6] [100;200]%Z 2
        = Some (m', m1', f', v') /\ m' = [2;1] /\ v' = [200;200]%Z /\ ~ (v' ≡ₚ [100;200]%Z).
Proof.
  exists (fun _ => 2147483647%Z). split; [intros k; lia|].
  do 4 eexists. split; [vm_compute; reflexivity|]. split; [done|]. split; [done|].
  intros H. assert (H1 : (100%Z) ∈ [200;200]%Z) by (rewrite H; set_solver). set_solver.
Qed.
Print Assumptions C02_int_labels_refuted.

Theorem C02_int_int_labels_refuted :
  exists rand, rand_ok 2147483647 rand /\
    exists m' m1' f' v' v2',
      shuffle_matrices_float_int_int_vectors 2147483647 rand [1;2] [3;4] [5;6] [100;200]%Z [7;8]%Z 2
        = Some (m', m1', f', v', v2') /\ m' = [2;1] /\ v' = [200;200]%Z /\ v2' = [8;8]%Z.
Proof.
  exists (fun _ => 2147483647%Z). split; [intros k; lia|].
  do 5 eexists. split; [vm_compute; reflexivity|]. done.
Qed.
Print Assumptions C02_int_int_labels_refuted.

(** C03.  A partial shuffle over 1 <= len <= n+1 stays in bounds, permutes the first n entries, and the
    selected prefix never repeats a position (stated for distinct contents). *)
Theorem C03_partial_shuffle_selects_without_replacement :
  forall (A : Type) rmax rand (m : list A) n len,
    rand_ok rmax rand -> n <= length m -> 1 <= len <= n + 1 ->
    exists m', shuffle_int_array_until_length rmax rand m n len = Some m' /\
      take n m' ≡ₚ take n m /\ drop n m' = drop n m /\
      (len <= n -> NoDup (take n m) -> NoDup (take len m')).
Proof.
  intros A rmax rand m n len Hr Hn Hl.
  destruct (shuffle_until_ok rmax rand Hr m n len Hn Hl) as (m' & p & E & Hp & Ha).
  destruct (aligned_perm n p m m' Hn Hp Ha) as (H1 & H2 & _).
  exists m'. split_and!; [done..|]. intros Hle Hnd. rewrite <- H1 in Hnd.
  replace (take len m') with (take len (take n m')) by (rewrite take_take; f_equal; lia).
  rewrite <- (take_drop len (take n m')) in Hnd. apply NoDup_app in Hnd as [Hx _]. exact Hx.
Qed.
Print Assumptions C03_partial_shuffle_selects_without_replacement.

Example C03_case :
  shuffle_int_array_until_length 32767 (fun k => nth k [30000; 2; 20000]%Z 0%Z) [10;11;12;13] 4 3 = Some [13;11;12;10].
Proof. vm_compute. reflexivity. Qed.

(** C03.  Any choice of the first len-1 selected entries is reachable. *)
Theorem C03_any_prefix_reachable :
  forall (A : Type) rmax (m sel rest : list A),
    m ≡ₚ sel ++ rest -> 1 < length m -> 1 <= length sel ->
    (Z.of_nat (length m) * (Z.of_nat (length m) - 1) <= rmax)%Z ->
    exists rand m', rand_ok rmax rand /\
      shuffle_int_array_until_length rmax rand m (length m) (length sel) = Some m' /\
      take (length sel - 1) m' = take (length sel - 1) sel.
Proof. intros A rmax m sel rest Hp Hn Hs Hb. exact (until_reach rmax m sel rest _ eq_refl Hp Hn Hs Hb). Qed.
Print Assumptions C03_any_prefix_reachable.

Example C03_reach_hyps : [1;2;3] ≡ₚ [3;1] ++ [2] /\ 1 < length [1;2;3] /\ 1 <= length [3;1].
Proof. split; [|cbn; lia]. cbn. by rewrite (Permutation_app_comm [1;2] [3]). Qed.

(** C03 "every selection can be obtained" is false: the last selected entry always comes from the
    first len positions of the array, whatever rand() returns (utils.c:486 stops at len-1), so a
    selection disjoint from those is impossible, and a batch of one is never random. *)
Theorem C03_every_selection_refuted :
  forall (A : Type) rmax rand (m m' : list A) n len,
    rand_ok rmax rand -> n <= length m -> 1 <= len <= n ->
    shuffle_int_array_until_length rmax rand m n len = Some m' ->
    exists x, m' !! (len - 1) = Some x /\ x ∈ take len m.
Proof. intros A rmax rand m m' n len. exact (until_last rmax rand m m' n len). Qed.
Print Assumptions C03_every_selection_refuted.

(** C03.  len = 0 or len > n+1 with n > 1 is undefined behaviour for every rand() sequence. *)
Theorem C03_length_zero_or_too_long_is_undefined :
  forall (A : Type) rmax rand (m : list A) n len,
    rand_ok rmax rand -> n <= length m -> 1 < n -> len = 0 \/ n + 1 < len ->
    shuffle_int_array_until_length rmax rand m n len = None.
Proof.
  intros A rmax rand m n len Hr Hn H1 [->|H].
  - exact (until_zero rmax rand m n Hr Hn H1).
  - exact (until_too_long rmax rand m n len Hr Hn H1 H).
Qed.
Print Assumptions C03_length_zero_or_too_long_is_undefined.
