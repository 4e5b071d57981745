From Verif Require Import BaseLemmas Shuffle_Model Shuffle_Spec.
Open Scope nat_scope.

Definition swapl {A} (i j : nat) (x y : A) (m : list A) : list A := <[i := y]> (<[j := x]> m).

Lemma swap_cells_ok {A} i j (m : list A) :
  i < length m -> j < length m ->
  exists x y, m !! i = Some x /\ m !! j = Some y /\ swap_cells i j m = Some (swapl i j x y m).
Proof.
  intros Hi Hj.
  destruct (rd_Some m i Hi) as [x Hx], (rd_Some m j Hj) as [y Hy].
  exists x, y. split; [done|]. split; [done|].
  unfold swap_cells. rewrite Hx, Hy. cbn [mbind option_bind].
  rewrite wr_Some by done. cbn [mbind option_bind]. rewrite wr_Some by (rewrite insert_length; done).
  done.
Qed.

Lemma swapl_length {A} i j (x y : A) m : length (swapl i j x y m) = length m.
Proof. unfold swapl. by rewrite !insert_length. Qed.

Lemma swapl_perm {A} i j (x y : A) m :
  m !! i = Some x -> m !! j = Some y -> swapl i j x y m ≡ₚ m.
Proof.
  intros Hx Hy. apply Permutation_inj. split; [apply swapl_length|].
  exists (fun k => if decide (k = i) then j else if decide (k = j) then i else k). split.
  - intros a b. repeat case_decide; simplify_eq; intros; simplify_eq; done.
  - intros k. unfold swapl.
    assert (i < length m) by by eapply lookup_lt_Some.
    assert (j < length m) by by eapply lookup_lt_Some.
    case_decide; [subst; rewrite list_lookup_insert by (rewrite insert_length; done); done|].
    rewrite list_lookup_insert_ne by done.
    case_decide; [subst; rewrite list_lookup_insert by done; done|].
    by rewrite list_lookup_insert_ne by done.
Qed.

Lemma swapl_app {A} i j (x y : A) a b :
  i < length a -> j < length a -> swapl i j x y (a ++ b) = swapl i j x y a ++ b.
Proof.
  intros. unfold swapl. rewrite insert_app_l by done.
  rewrite insert_app_l by (rewrite insert_length; done). done.
Qed.

Lemma swap_cells_app {A} i j (a b a' : list A) :
  i < length a -> j < length a -> swap_cells i j a = Some a' ->
  swap_cells i j (a ++ b) = Some (a' ++ b).
Proof.
  intros Hi Hj H.
  destruct (swap_cells_ok i j a Hi Hj) as (x & y & Hx & Hy & E).
  rewrite E in H. simplify_eq.
  destruct (swap_cells_ok i j (a ++ b)) as (x' & y' & Hx' & Hy' & E').
  1,2: rewrite app_length; lia.
  rewrite lookup_app_l in Hx', Hy' by done. simplify_eq.
  rewrite E', swapl_app by done. done.
Qed.

Lemma swapl_reordered {A} i j k l (x y : A) p m0 m :
  reordered_by p m0 m -> p !! i = Some k -> p !! j = Some l -> m !! i = Some x -> m !! j = Some y ->
  reordered_by (swapl i j k l p) m0 (swapl i j x y m).
Proof.
  unfold reordered_by, swapl. intros HF Hk Hl Hx Hy.
  pose proof (Forall2_lookup_lr _ _ _ _ _ _ HF Hk Hx).
  pose proof (Forall2_lookup_lr _ _ _ _ _ _ HF Hl Hy).
  apply Forall2_insert; [apply Forall2_insert; done|done].
Qed.

Section rnd.
  Context (rmax : Z) (rand : nat -> Z) (Hr : rand_ok rmax rand).

  Lemma pick_ok i n : i < n -> exists j, pick rmax rand i n = Some j /\ i <= j < n.
  Proof.
    intros Hi. unfold pick. rewrite decide_False by lia. eexists. split; [done|].
    specialize (Hr i). set (q := (rmax / Z.of_nat (n - i))%Z).
    assert (Hq : (rmax < Z.of_nat (n - i) * (q + 1))%Z).
    { unfold q. pose proof (Z.mod_pos_bound rmax (Z.of_nat (n - i))).
      pose proof (Z.div_mod rmax (Z.of_nat (n - i))). lia. }
    assert (0 <= q)%Z by (unfold q; apply Z.div_pos; lia).
    assert (0 <= rand i / (q + 1) < Z.of_nat (n - i))%Z.
    { split; [apply Z.div_pos; lia|]. apply Z.div_lt_upper_bound; lia. }
    lia.
  Qed.

  (** Invariant of all shuffles: one permutation of the positions explains the array. *)
  Definition aligned {A} (n : nat) (p : list nat) (m0 m : list A) : Prop :=
    exists a, m = a ++ drop n m0 /\ reordered_by p m0 a.

  Lemma aligned_init {A} n (m : list A) : n <= length m -> aligned n (seq 0 n) m m.
  Proof.
    intros Hn. exists (take n m). split; [by rewrite take_drop|].
    unfold reordered_by. apply Forall2_same_length_lookup_2.
    { rewrite seq_length, take_length. lia. }
    intros i k x Hk Hx. apply lookup_seq in Hk. destruct Hk as [-> ?].
    rewrite lookup_take in Hx by lia. done.
  Qed.

  Lemma aligned_swap {A} n p (m0 m : list A) i j :
    permutation_of_positions n p -> i < n -> j < n -> aligned n p m0 m ->
    exists k l m', p !! i = Some k /\ p !! j = Some l /\
      swap_cells i j m = Some m' /\ aligned n (swapl i j k l p) m0 m'.
  Proof.
    intros Hp Hi Hj (a & -> & Ha).
    assert (Hlp : length p = n) by (unfold permutation_of_positions in Hp; rewrite Hp; apply seq_length).
    assert (Hla : length a = n) by (rewrite <-(Forall2_length _ _ _ Ha); done).
    destruct (rd_Some p i) as [k Hk]; [lia|]. destruct (rd_Some p j) as [l Hl]; [lia|].
    destruct (swap_cells_ok i j a) as (x & y & Hx & Hy & E); [lia..|].
    exists k, l, (swapl i j x y a ++ drop n m0). split; [done|]. split; [done|]. split.
    { apply swap_cells_app; [lia..|done]. }
    exists (swapl i j x y a). split; [done|]. by apply swapl_reordered.
  Qed.

  Lemma swap_positions n p i j k l :
    permutation_of_positions n p -> p !! i = Some k -> p !! j = Some l ->
    permutation_of_positions n (swapl i j k l p).
  Proof. unfold permutation_of_positions. intros Hp Hk Hl. rewrite swapl_perm; done. Qed.

  Lemma aligned_perm {A} n p (m0 m : list A) :
    n <= length m0 -> permutation_of_positions n p -> aligned n p m0 m ->
    take n m ≡ₚ take n m0 /\ drop n m = drop n m0 /\ reordered_by p m0 (take n m).
  Proof.
    intros Hn Hp (a & -> & Ha).
    assert (Hlp : length p = n) by (unfold permutation_of_positions in Hp; rewrite Hp; apply seq_length).
    assert (Hla : length a = n) by (rewrite <-(Forall2_length _ _ _ Ha); done).
    rewrite take_app_alt, drop_app_alt by done. split_and!; [|done|done].
    assert (Hmap : forall (p0 : list nat) a0, Forall2 (fun k x => m0 !! k = Some x) p0 a0 -> omap (m0 !!.) p0 = a0).
    { intros p0 a0 H. induction H as [|k x p0 a0 Hx H IH]; [done|]. cbn. rewrite Hx, IH. done. }
    rewrite <- (Hmap _ _ Ha). unfold permutation_of_positions in Hp. rewrite Hp.
    assert (Hseq : forall (l : list A) k, k <= length l -> omap (l !!.) (seq 0 k) = take k l).
    { intros l k. revert l. induction k as [|k IH]; intros [|x l] Hk; cbn in *; try lia; try done.
      rewrite <- (IH l) by lia. rewrite <- seq_shift. f_equal.
      generalize (seq 0 k). intros s. induction s as [|z s IHs]; cbn; [done|]. rewrite IHs. done. }
    rewrite Hseq by done. done.
  Qed.

  Lemma shuffle_loop1 {A} (m : list A) n cnt :
    n <= length m -> cnt <= n ->
    exists m' p, for_loop cnt 0 (fun i m => j ← pick rmax rand i n; swap_cells i j m) m = Some m' /\
      permutation_of_positions n p /\ aligned n p m m'.
  Proof.
    intros Hn Hc.
    destruct (for_loop_inv (fun _ s => exists p, permutation_of_positions n p /\ aligned n p m s)
      (fun i m => j ← pick rmax rand i n; swap_cells i j m) cnt 0 m) as (m' & E & p & H1 & H2).
    - exists (seq 0 n). split; [apply Permutation_refl|]. by apply aligned_init.
    - intros i s Hi (p & Hp & Ha). destruct (pick_ok i n) as (j & -> & Hj); [lia|].
      cbn [mbind option_bind].
      destruct (aligned_swap n p m s i j) as (k & l & s' & Hk & Hl & E & Ha'); [done|lia|lia|done|].
      exists s'. split; [done|]. exists (swapl i j k l p). split; [|done]. by apply swap_positions.
    - eauto.
  Qed.

  Lemma shuffle_matrix_ok {A} (m : list A) n :
    n <= length m ->
    exists m' p, shuffle_matrix rmax rand m n = Some m' /\
      permutation_of_positions n p /\ aligned n p m m'.
  Proof.
    intros Hn. unfold shuffle_matrix. case_decide.
    - apply shuffle_loop1; lia.
    - exists m, (seq 0 n). split; [done|]. split; [apply Permutation_refl|]. by apply aligned_init.
  Qed.

  Lemma shuffle_until_ok {A} (m : list A) n len :
    n <= length m -> 1 <= len <= n + 1 ->
    exists m' p, shuffle_int_array_until_length rmax rand m n len = Some m' /\
      permutation_of_positions n p /\ aligned n p m m'.
  Proof.
    intros Hn Hl. unfold shuffle_int_array_until_length. case_decide.
    - rewrite decide_False by lia. apply shuffle_loop1; lia.
    - exists m, (seq 0 n). split; [done|]. split; [apply Permutation_refl|]. by apply aligned_init.
  Qed.

  Lemma shuffle_matrices_ok {A B} (m : list A) (m1 : list B) n :
    n <= length m -> n <= length m1 ->
    exists m' m1' p, shuffle_matrices rmax rand m m1 n = Some (m', m1') /\
      permutation_of_positions n p /\ aligned n p m m' /\ aligned n p m1 m1'.
  Proof.
    intros Hn Hn1. unfold shuffle_matrices. case_decide.
    - match goal with |- context [for_loop _ _ ?b _] => set (body := b) end.
      destruct (for_loop_inv (fun _ '(s, s1) => exists p, permutation_of_positions n p /\
        aligned n p m s /\ aligned n p m1 s1) body (n - 1) 0 (m, m1)) as ([m' m1'] & E & p & H1 & H2 & H3).
      + exists (seq 0 n). split; [apply Permutation_refl|]. split; by apply aligned_init.
      + intros i [s s1] Hi (p & Hp & Ha & Ha1). unfold body.
        destruct (pick_ok i n) as (j & -> & Hj); [lia|]. cbn [mbind option_bind].
        destruct (aligned_swap n p m s i j) as (k & l & s' & Hk & Hl & E & Ha'); [done|lia|lia|done|].
        destruct (aligned_swap n p m1 s1 i j) as (k1 & l1 & s1' & Hk1 & Hl1 & E1 & Ha1'); [done|lia|lia|done|].
        rewrite E, E1. cbn [mbind option_bind]. simplify_eq.
        eexists. split; [done|]. exists (swapl i j k l p). split; [by apply swap_positions|]. split; done.
      + eauto 10.
    - exists m, m1, (seq 0 n). split; [done|]. split; [apply Permutation_refl|]. split; by apply aligned_init.
  Qed.

  Lemma int_vector_cells_ok {A} i j (v : list A) :
    i < length v -> j < length v -> exists v', int_vector_cells i j v = Some v' /\ length v' = length v.
  Proof.
    intros Hi Hj. unfold int_vector_cells.
    destruct (rd_Some v i Hi) as [x ->], (rd_Some v j Hj) as [y ->]. cbn [mbind option_bind].
    rewrite wr_Some by done. cbn [mbind option_bind]. rewrite wr_Some by (rewrite insert_length; done).
    eexists. split; [done|]. by rewrite !insert_length.
  Qed.

  Lemma shuffle_4_ok {A B C D} (m : list A) (m1 : list B) (f : list C) (v : list D) n :
    n <= length m -> n <= length m1 -> n <= length f -> n <= length v ->
    exists m' m1' f' v' p,
      shuffle_matrices_float_int_vectors rmax rand m m1 f v n = Some (m', m1', f', v') /\
      permutation_of_positions n p /\ aligned n p m m' /\ aligned n p m1 m1' /\ aligned n p f f' /\
      length v' = length v.
  Proof.
    intros Hn Hn1 Hf Hv. unfold shuffle_matrices_float_int_vectors. case_decide.
    - match goal with |- context [for_loop _ _ ?b _] => set (body := b) end.
      destruct (for_loop_inv (fun _ '(s, s1, s2, s3) => exists p, permutation_of_positions n p /\
        aligned n p m s /\ aligned n p m1 s1 /\ aligned n p f s2 /\ length s3 = length v) body (n - 1) 0
        (m, m1, f, v)) as ([[[m' m1'] f'] v'] & E & p & H1 & H2 & H3 & H4 & H5).
      + exists (seq 0 n). split; [apply Permutation_refl|]. split_and!; try by apply aligned_init. done.
      + intros i [[[s s1] s2] s3] Hi (p & Hp & Ha & Ha1 & Ha2 & H3). unfold body.
        destruct (pick_ok i n) as (j & -> & Hj); [lia|]. cbn [mbind option_bind].
        destruct (aligned_swap n p m s i j) as (k & l & s' & Hk & Hl & E & Ha'); [done|lia|lia|done|].
        destruct (aligned_swap n p m1 s1 i j) as (k1 & l1 & s1' & Hk1 & Hl1 & E1 & Ha1'); [done|lia|lia|done|].
        destruct (aligned_swap n p f s2 i j) as (k2 & l2 & s2' & Hk2 & Hl2 & E2 & Ha2'); [done|lia|lia|done|].
        destruct (int_vector_cells_ok i j s3) as (s3' & E3 & H3'); [lia|lia|].
        rewrite E, E1, E2, E3. cbn [mbind option_bind]. simplify_eq.
        eexists. split; [done|]. exists (swapl i j k l p). split; [by apply swap_positions|]. split_and!; try done. lia.
      + eauto 15.
    - exists m, m1, f, v, (seq 0 n). split; [done|]. split; [apply Permutation_refl|].
      split_and!; try by apply aligned_init. done.
  Qed.

  Lemma shuffle_5_ok {A B C D E} (m : list A) (m1 : list B) (f : list C) (v : list D) (v2 : list E) n :
    n <= length m -> n <= length m1 -> n <= length f -> n <= length v -> n <= length v2 ->
    exists m' m1' f' v' v2' p,
      shuffle_matrices_float_int_int_vectors rmax rand m m1 f v v2 n = Some (m', m1', f', v', v2') /\
      permutation_of_positions n p /\ aligned n p m m' /\ aligned n p m1 m1' /\ aligned n p f f' /\
      length v' = length v /\ length v2' = length v2.
  Proof.
    intros Hn Hn1 Hf Hv Hv2. unfold shuffle_matrices_float_int_int_vectors. case_decide.
    - match goal with |- context [for_loop _ _ ?b _] => set (body := b) end.
      destruct (for_loop_inv (fun _ '(s, s1, s2, s3, s4) => exists p, permutation_of_positions n p /\
        aligned n p m s /\ aligned n p m1 s1 /\ aligned n p f s2 /\ length s3 = length v /\
        length s4 = length v2) body (n - 1) 0
        (m, m1, f, v, v2)) as ([[[[m' m1'] f'] v'] v2'] & E0 & p & H1 & H2 & H3 & H4 & H5 & H6).
      + exists (seq 0 n). split; [apply Permutation_refl|]. split_and!; try by apply aligned_init. all: done.
      + intros i [[[[s s1] s2] s3] s4] Hi (p & Hp & Ha & Ha1 & Ha2 & H3 & H4). unfold body.
        destruct (pick_ok i n) as (j & -> & Hj); [lia|]. cbn [mbind option_bind].
        destruct (aligned_swap n p m s i j) as (k & l & s' & Hk & Hl & E0 & Ha'); [done|lia|lia|done|].
        destruct (aligned_swap n p m1 s1 i j) as (k1 & l1 & s1' & Hk1 & Hl1 & E1 & Ha1'); [done|lia|lia|done|].
        destruct (aligned_swap n p f s2 i j) as (k2 & l2 & s2' & Hk2 & Hl2 & E2 & Ha2'); [done|lia|lia|done|].
        destruct (int_vector_cells_ok i j s3) as (s3' & E3 & H3'); [lia|lia|].
        destruct (int_vector_cells_ok i j s4) as (s4' & E4 & H4'); [lia|lia|].
        rewrite E0, E1, E2, E3, E4. cbn [mbind option_bind]. simplify_eq.
        eexists. split; [done|]. exists (swapl i j k l p). split; [by apply swap_positions|]. split_and!; try done; lia.
      + eauto 20.
    - exists m, m1, f, v, v2, (seq 0 n). split; [done|]. split; [apply Permutation_refl|].
      split_and!; try by apply aligned_init. all: done.
  Qed.
End rnd.

(** ** The exact order produced by a partial shuffle: entries past position [len-1] may move, the
    first [len] are distinct positions (consequence of the permutation). *)

(** ** Reachability *)
Lemma pick_reach rmax i n d :
  i < n -> d < n - i -> (Z.of_nat n * (Z.of_nat n - 1) <= rmax)%Z ->
  let r := (Z.of_nat d * (rmax / Z.of_nat (n - i) + 1))%Z in
  (0 <= r <= rmax)%Z /\ Z.to_nat (r / (rmax / Z.of_nat (n - i) + 1)) = d.
Proof.
  intros Hi Hd Hn r.
  set (k := Z.of_nat (n - i)) in *. set (q := (rmax / k)%Z) in *.
  assert (Hk : (1 <= k <= Z.of_nat n)%Z) by (unfold k; lia).
  assert (Hkk : (k * (k - 1) <= rmax)%Z) by nia.
  assert (Hq : (k - 1 <= q)%Z). { unfold q. apply Z.div_le_lower_bound; lia. }
  assert (Hqk : (k * q <= rmax)%Z). { unfold q. apply Z.mul_div_le. lia. }
  split.
  - unfold r. assert (Z.of_nat d <= k - 1)%Z by (unfold k; lia). split; [nia|].
    assert ((Z.of_nat d) * (q + 1) <= (k - 1) * (q + 1))%Z by nia. nia.
  - unfold r. rewrite Z.div_mul by lia. lia.
Qed.

Lemma perm_find_from {A} (i : nat) (m m' : list A) x :
  m ≡ₚ m' -> take i m = take i m' -> m' !! i = Some x ->
  exists j, i <= j < length m /\ m !! j = Some x.
Proof.
  intros Hp Ht Hx.
  assert (Hd : drop i m ≡ₚ drop i m').
  { rewrite <- (take_drop i m), <- (take_drop i m') in Hp. rewrite Ht in Hp.
    by apply Permutation_app_inv_l in Hp. }
  assert (Hin : x ∈ drop i m).
  { rewrite Hd. apply elem_of_list_lookup. exists 0. rewrite lookup_drop, Nat.add_0_r. done. }
  apply elem_of_list_lookup in Hin. destruct Hin as [d Hdx]. rewrite lookup_drop in Hdx.
  exists (i + d). split; [|done]. apply lookup_lt_Some in Hdx. lia.
Qed.

Lemma pick_ext rmax r1 r2 i n : r1 i = r2 i -> pick rmax r1 i n = pick rmax r2 i n.
Proof. intros E. unfold pick. by rewrite E. Qed.

Lemma shuffle_reach_loop {A} rmax n :
  (Z.of_nat n * (Z.of_nat n - 1) <= rmax)%Z ->
  forall cnt i (m m' : list A),
  length m = n -> m ≡ₚ m' -> take i m = take i m' -> i + cnt <= n ->
  exists rand m'', rand_ok rmax rand /\
    for_loop cnt i (fun i m => j ← pick rmax rand i n; swap_cells i j m) m = Some m'' /\
    m'' ≡ₚ m' /\ take (i + cnt) m'' = take (i + cnt) m' /\ length m'' = n.
Proof.
  intros Hbig cnt. induction cnt as [|cnt IH]; intros i m m' Hlen Hp Ht Hi.
  - exists (fun _ => 0%Z), m. rewrite Nat.add_0_r. split_and!; try done. intros k. split; [lia|]. nia.
  - assert (Hi' : i < n) by lia.
    assert (Hlen' : length m' = n) by (rewrite <- Hp; done).
    destruct (rd_Some m' i) as [x Hx]; [lia|]. unfold rd in Hx.
    destruct (perm_find_from i m m' x) as (j & Hj & Hjx); [done..|].
    rewrite Hlen in Hj.
    destruct (pick_reach rmax i n (j - i)) as [Hr Hrd]; [lia|lia|done|].
    set (r := (Z.of_nat (j - i) * (rmax / Z.of_nat (n - i) + 1))%Z) in *.
    destruct (swap_cells_ok i j m) as (xi & xj & Hxi & Hxj & E); [lia..|].
    assert (xj = x) as -> by congruence. set (m1 := swapl i j xi x m) in *.
    destruct (IH (S i) m1 m') as (rand & m'' & Hok & El & Hp' & Ht' & Hl').
    + unfold m1. by rewrite swapl_length.
    + unfold m1. rewrite swapl_perm by done. done.
    + rewrite (take_S_r m1 i x), (take_S_r m' i x); [|done|].
      * f_equal. rewrite <- Ht. unfold m1, swapl. rewrite take_insert by lia. rewrite take_insert by lia. done.
      * unfold m1, swapl. apply list_lookup_insert. rewrite insert_length. lia.
    + lia.
    + set (rand' := fun k => if decide (k = i) then r else rand k).
      exists rand', m''. split_and!.
      * intros k. unfold rand'. case_decide; [done|apply Hok].
      * assert (Epk : pick rmax rand' i n = Some j).
        { unfold pick, rand'. rewrite decide_False by lia. rewrite decide_True by done. rewrite Hrd. f_equal. lia. }
        cbn [for_loop]. rewrite Epk. cbn [mbind option_bind]. rewrite E. cbn [mbind option_bind].
        rewrite <- El. apply for_loop_ext. intros k s Hk.
        rewrite (pick_ext rmax rand' rand k n); [done|]. unfold rand'. by rewrite decide_False by lia.
      * done.
      * rewrite <- Nat.add_succ_comm. done.
      * done.
Qed.

Lemma take_pred_perm_eq {A} (n : nat) (m m' : list A) :
  length m = n -> m ≡ₚ m' -> take (n - 1) m = take (n - 1) m' -> m = m'.
Proof.
  intros Hl Hp Ht.
  assert (Hl' : length m' = n) by (rewrite <- Hp; done).
  rewrite <- (take_drop (n - 1) m), <- (take_drop (n - 1) m') in Hp. rewrite Ht in Hp.
  apply Permutation_app_inv_l in Hp.
  rewrite <- (take_drop (n - 1) m), <- (take_drop (n - 1) m'), Ht. f_equal.
  assert (Hd : length (drop (n - 1) m) <= 1) by (rewrite drop_length; lia).
  assert (Hd' : length (drop (n - 1) m') <= 1) by (rewrite drop_length; lia).
  destruct (drop (n - 1) m) as [|a [|? ?]], (drop (n - 1) m') as [|b [|? ?]]; cbn in *; try lia; try done.
  - by apply Permutation_nil in Hp.
  - apply Permutation_length in Hp. cbn in Hp. lia.
  - apply Permutation_length_1 in Hp. by subst.
Qed.

Lemma shuffle_reach {A} rmax (m m' : list A) n :
  length m = n -> m ≡ₚ m' -> (Z.of_nat n * (Z.of_nat n - 1) <= rmax)%Z ->
  exists rand, rand_ok rmax rand /\ shuffle_matrix rmax rand m n = Some m'.
Proof.
  intros Hl Hp Hb. unfold shuffle_matrix. case_decide as Hn.
  - destruct (shuffle_reach_loop (A:=A) rmax n Hb (n - 1) 0 m m') as (rand & m'' & Hok & E & Hp' & Ht & Hl'); [done|done|done|lia|].
    exists rand. split; [done|]. rewrite E. f_equal. by apply (take_pred_perm_eq n).
  - exists (fun _ => 0%Z). split. { intros k. split; [lia|]. nia. } f_equal.
    apply (take_pred_perm_eq n); [done|done|]. destruct n as [|[|n]]; [done|done|lia].
Qed.

Lemma until_reach {A} rmax (m sel rest : list A) n :
  length m = n -> m ≡ₚ sel ++ rest -> 1 < n -> 1 <= length sel ->
  (Z.of_nat n * (Z.of_nat n - 1) <= rmax)%Z ->
  exists rand m', rand_ok rmax rand /\
    shuffle_int_array_until_length rmax rand m n (length sel) = Some m' /\
    take (length sel - 1) m' = take (length sel - 1) sel.
Proof.
  intros Hl Hp Hn Hs Hb. unfold shuffle_int_array_until_length.
  destruct (decide (1 < n)) as [_|]; [|lia]. destruct (decide (length sel = 0)) as [|_]; [lia|].
  assert (length sel + length rest = n) by (rewrite <- Hl, Hp, app_length; done).
  destruct (shuffle_reach_loop (A:=A) rmax n Hb (length sel - 1) 0 m (sel ++ rest)) as (rand & m'' & Hok & E & Hp' & Ht & Hl'); [done|done|done|lia|].
  exists rand, m''. split; [done|]. split; [done|]. cbn [plus] in Ht. rewrite Ht.
  rewrite take_app_le by lia. done.
Qed.

Lemma until_zero {A} rmax rand (m : list A) n :
  rand_ok rmax rand -> n <= length m -> 1 < n -> shuffle_int_array_until_length rmax rand m n 0 = None.
Proof.
  intros Hr Hn H1. unfold shuffle_int_array_until_length. destruct (decide (1 < n)) as [_|]; [|lia].
  destruct (decide (0 = 0)) as [_|]; [|lia]. rewrite for_loop_app.
  destruct (shuffle_loop1 rmax rand Hr m n n) as (m' & p & E & _); [lia|lia|]. rewrite E.
  cbn [mbind option_bind for_loop]. unfold pick. rewrite decide_True by lia. done.
Qed.

Lemma until_too_long {A} rmax rand (m : list A) n len :
  rand_ok rmax rand -> n <= length m -> 1 < n -> n + 1 < len ->
  shuffle_int_array_until_length rmax rand m n len = None.
Proof.
  intros Hr Hn H1 Hl. unfold shuffle_int_array_until_length. destruct (decide (1 < n)) as [_|]; [|lia].
  destruct (decide (len = 0)) as [|_]; [lia|].
  replace (len - 1) with (n + (len - 1 - n)) by lia. rewrite for_loop_app.
  destruct (shuffle_loop1 rmax rand Hr m n n) as (m' & p & E & _); [lia|lia|]. rewrite E.
  cbn [mbind option_bind]. destruct (len - 1 - n) as [|c] eqn:Ec; [lia|].
  cbn [for_loop]. unfold pick. rewrite decide_True by lia. done.
Qed.

(** ** Limits of the random choice *)
Lemma for_loop_none_or {S} (P : S -> Prop) (body : nat -> S -> option S) cnt i0 s s' :
  P s -> (forall i s s', i0 <= i < i0 + cnt -> P s -> body i s = Some s' -> P s') ->
  for_loop cnt i0 body s = Some s' -> P s'.
Proof.
  revert i0 s. induction cnt as [|c IH]; intros i0 s H0 Hstep; cbn [for_loop].
  - intros; simplify_eq; done.
  - destruct (body i0 s) as [t|] eqn:E; cbn [mbind option_bind]; [|done].
    intros H. eapply (IH (Datatypes.S i0) t); [eapply Hstep; [|done|done]; lia| |done].
    intros i u u' Hi. apply Hstep. lia.
Qed.

Lemma shuffle_first {A} rmax rand (m m' : list A) n :
  rand_ok rmax rand -> 1 < n -> length m = n -> shuffle_matrix rmax rand m n = Some m' ->
  exists j, pick rmax rand 0 n = Some j /\ m' !! 0 = m !! j.
Proof.
  intros Hr Hn Hl. unfold shuffle_matrix. destruct (decide (1 < n)) as [_|]; [|lia].
  destruct (n - 1) as [|c] eqn:Ec; [lia|]. cbn [for_loop].
  destruct (pick_ok rmax rand Hr 0 n) as (j & Ej & Hj); [lia|]. rewrite Ej. cbn [mbind option_bind].
  destruct (swap_cells_ok 0 j m) as (x & y & Hx & Hy & E); [lia..|]. rewrite E. cbn [mbind option_bind].
  intros H. exists j. split; [done|]. rewrite Hy.
  cut (m' !! 0 = Some y /\ length m' = n); [naive_solver|].
  eapply (for_loop_none_or (fun s => s !! 0 = Some y /\ length s = n)); [| |exact H].
  - split; [|by rewrite swapl_length]. unfold swapl. apply list_lookup_insert. rewrite insert_length. lia.
  - intros i s s' Hi [Hs Hsl] Hb. destruct (pick_ok rmax rand Hr i n) as (k & Ek & Hk); [lia|].
    rewrite Ek in Hb. cbn [mbind option_bind] in Hb.
    destruct (swap_cells_ok i k s) as (a & b & Ha & Hbb & E2); [lia..|]. rewrite E2 in Hb. simplify_eq.
    split; [|by rewrite swapl_length]. unfold swapl. rewrite !list_lookup_insert_ne by lia. done.
Qed.

(** RAND_MAX of glibc and n = 99999: the largest index the first step can choose is below n-1. *)
Lemma pick_misses_last rand n :
  Z.of_nat n = 99999%Z -> rand_ok 2147483647 rand -> pick 2147483647 rand 0 n <> Some (n - 1).
Proof.
  intros Hn Hr H. unfold pick in H. destruct (decide (n <= 0)) as [|Hd]; [discriminate|].
  rewrite Nat.sub_0_r in H. rewrite Hn in H. specialize (Hr 0).
  injection H as H.
  assert (rand 0%nat / (2147483647 / 99999 + 1) <= 2147483647 / (2147483647 / 99999 + 1))%Z.
  { apply Z.div_le_mono; [reflexivity|lia]. }
  assert (Hv : (2147483647 / (2147483647 / 99999 + 1))%Z = 99994%Z) by (vm_compute; reflexivity).
  set (q := (rand 0%nat / (2147483647 / 99999 + 1))%Z) in *. rewrite Hv in *. lia.
Qed.

Lemma shuffle_unreachable {A} (m m' : list A) rand :
  Z.of_nat (length m) = 99999%Z -> NoDup m -> m' !! 0 = m !! (length m - 1) ->
  rand_ok 2147483647 rand -> shuffle_matrix 2147483647 rand m (length m) <> Some m'.
Proof.
  intros Hl Hnd Hm Hr H.
  destruct (shuffle_first _ _ _ _ (length m) Hr ltac:(lia) eq_refl H) as (j & Ej & Hj).
  rewrite Hm in Hj.
  apply (pick_misses_last rand _ Hl Hr). rewrite Ej. f_equal.
  destruct (rd_Some m (length m - 1)) as [x Hx]; [lia|]. unfold rd in Hx. rewrite Hx in Hj.
  symmetry. eapply NoDup_lookup; [exact Hnd|exact Hx|]. by rewrite Hj.
Qed.

(** The last entry of a partial shuffle comes from the first [len] positions. *)
Lemma until_last {A} rmax rand (m m' : list A) n len :
  rand_ok rmax rand -> n <= length m -> 1 <= len <= n ->
  shuffle_int_array_until_length rmax rand m n len = Some m' ->
  exists x, m' !! (len - 1) = Some x /\ x ∈ take len m.
Proof.
  intros Hr Hn Hlen H.
  assert (Hinit : forall q x, m !! q = Some x -> q < len -> x ∈ take len m).
  { intros q x Hq Hlt. apply elem_of_list_lookup. exists q. rewrite lookup_take by done. done. }
  unfold shuffle_int_array_until_length in H. case_decide as H1.
  - destruct (decide (len = 0)) as [|_]; [lia|].
    match goal with H : for_loop _ _ ?b _ = _ |- _ => set (body := b) in * end.
    destruct (for_loop_inv (fun i s => length s = length m /\
      forall q x, i <= q < len -> s !! q = Some x -> x ∈ take len m) body (len - 1) 0 m)
      as (s & E & Hls & Hs).
    + split; [done|]. intros q x Hq Hx. eapply Hinit; [done|lia].
    + intros i s Hi [Hls Hs]. unfold body. destruct (pick_ok rmax rand Hr i n) as (j & -> & Hj); [lia|].
      cbn [mbind option_bind].
      destruct (swap_cells_ok i j s) as (x & y & Hx & Hy & E); [lia..|]. rewrite E.
      eexists. split; [done|]. split; [by rewrite swapl_length|].
      intros q z Hq Hz. unfold swapl in Hz. rewrite list_lookup_insert_ne in Hz by lia.
      destruct (decide (q = j)) as [->|Hne].
      * rewrite list_lookup_insert in Hz by lia. simplify_eq. eapply (Hs i); [lia|done].
      * rewrite list_lookup_insert_ne in Hz by done. eapply Hs; [|done]. lia.
    + rewrite E in H. simplify_eq.
      destruct (rd_Some m' (len - 1)) as [x Hx]; [lia|]. exists x. split; [done|]. eapply Hs; [|done]. lia.
  - simplify_eq. destruct (rd_Some m' (len - 1)) as [x Hx]; [lia|]. exists x. split; [done|].
    eapply Hinit; [done|lia].
Qed.
