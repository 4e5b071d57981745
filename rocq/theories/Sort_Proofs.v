From Verif Require Import BaseLemmas OrderLemmas Sort_Model.
Open Scope nat_scope.

(** I' is I with the positions in [lo,hi] permuted. *)
Definition seg_perm (lo hi : nat) (I I' : list nat) : Prop :=
  length I' = length I /\
  exists f : nat -> nat, Inj (=) (=) f /\ (forall k, k < lo \/ hi < k -> f k = k) /\
    forall k, I' !! k = I !! f k.

Lemma seg_perm_refl lo hi I : seg_perm lo hi I I.
Proof. split; [done|]. exists id. split; [apply _|]. split; done. Qed.

Lemma seg_perm_trans lo hi I1 I2 I3 : seg_perm lo hi I1 I2 -> seg_perm lo hi I2 I3 -> seg_perm lo hi I1 I3.
Proof.
  intros (L1 & f & Hf & Hfo & Hfl) (L2 & g & Hg & Hgo & Hgl). split; [lia|].
  exists (fun k => f (g k)). split_and!.
  - intros a b H. apply Hg, Hf, H.
  - intros k Hk. rewrite Hgo, Hfo by done. done.
  - intros k. rewrite Hgl, Hfl. done.
Qed.

Lemma seg_perm_mono lo hi lo' hi' I I' : lo' <= lo -> hi <= hi' -> seg_perm lo hi I I' -> seg_perm lo' hi' I I'.
Proof.
  intros H1 H2 (L & f & Hf & Hfo & Hfl). split; [done|]. exists f. split_and!; [done| |done].
  intros k Hk. apply Hfo. lia.
Qed.

Lemma seg_perm_inside lo hi I I' : seg_perm lo hi I I' ->
  forall k x, lo <= k <= hi -> I' !! k = Some x -> exists k', lo <= k' <= hi /\ I !! k' = Some x.
Proof.
  intros (L & f & Hf & Hfo & Hfl) k x Hk Hx. exists (f k). split; [|by rewrite <- Hfl].
  destruct (decide (lo <= f k <= hi)) as [|Hn]; [done|]. exfalso.
  assert (f (f k) = f k) by (apply Hfo; lia). apply Hf in H. lia.
Qed.

Lemma seg_perm_outside lo hi I I' : seg_perm lo hi I I' -> forall k, k < lo \/ hi < k -> I' !! k = I !! k.
Proof. intros (L & f & Hf & Hfo & Hfl) k Hk. rewrite Hfl, Hfo; done. Qed.

Lemma seg_perm_perm lo hi I I' : seg_perm lo hi I I' -> I' ≡ₚ I.
Proof. intros (L & f & Hf & Hfo & Hfl). apply Permutation_inj. split; [done|]. exists f. done. Qed.

Lemma seg_perm_swap lo hi I i j x y :
  lo <= i <= hi -> lo <= j <= hi -> I !! i = Some x -> I !! j = Some y ->
  seg_perm lo hi I (<[j := x]> (<[i := y]> I)).
Proof.
  intros Hi Hj Hx Hy. split; [by rewrite !insert_length|].
  exists (fun k => if decide (k = i) then j else if decide (k = j) then i else k). split_and!.
  - intros a b. repeat case_decide; simplify_eq; intros; simplify_eq; done.
  - intros k Hk. rewrite !decide_False by lia. done.
  - intros k. assert (i < length I) by by eapply lookup_lt_Some.
    assert (j < length I) by by eapply lookup_lt_Some.
    destruct (decide (k = j)) as [->|Hkj].
    + rewrite list_lookup_insert by (rewrite insert_length; done). case_decide; subst; [congruence|done].
    + rewrite list_lookup_insert_ne by done. case_decide; subst.
      * rewrite list_lookup_insert by done. done.
      * by rewrite list_lookup_insert_ne by done.
Qed.

Section qs.
  Context {V : Type} (ltb : V -> V -> bool) (Hs : strict_weak_order ltb) (A : list V).
  Local Notation "x ≤v y" := (leP ltb x y) (at level 70).

  (** The value that position k of the index array points to. *)
  Definition val (I : list nat) (k : nat) : option V := a ← I !! k; A !! a.

  Definition valid (I : list nat) (lo hi : nat) : Prop := forall k, lo <= k <= hi -> is_Some (val I k).

  Lemma val_rd I k v : val I k = Some v -> (a ← rd I k; rd A a) = Some v.
  Proof. done. Qed.

  Lemma scan_up_ok I p : forall fuel i k v,
    i <= k -> k - i < fuel -> val I k = Some v -> p ≤v v -> (forall q, i <= q <= k -> is_Some (val I q)) ->
    exists i' w, scan_up ltb fuel A I p i = Some i' /\ i <= i' <= k /\ val I i' = Some w /\ p ≤v w /\
      (forall q u, i <= q < i' -> val I q = Some u -> u ≤v p).
  Proof.
    induction fuel as [|fuel IH]; intros i k v Hik Hf Hk Hp Hval; [lia|].
    cbn [scan_up]. destruct (Hval i) as [u Hu]; [lia|].
    pose proof Hu as Hu'. unfold val in Hu'. unfold rd. destruct (I !! i) as [a|]; [|done]. cbn [mbind option_bind] in *.
    rewrite Hu'. cbn [mbind option_bind]. destruct (ltb u p) eqn:E.
    - assert (i <> k). { intros ->. rewrite Hk in Hu. simplify_eq. unfold leP in Hp. congruence. }
      destruct (IH (i + 1) k v) as (i' & w & Hsc & Hi' & Hw & Hpw & Hall); [lia|lia|done|done| |].
      { intros q Hq. apply Hval. lia. }
      exists i', w. split; [exact Hsc|]. split; [lia|]. split; [done|]. split; [done|].
      intros q t Hq Ht. destruct (decide (q = i)) as [->|]; [|apply (Hall q); [lia|done]].
      rewrite Hu in Ht. simplify_eq. by apply ltb_leP.
    - exists i, u. split; [done|]. split; [lia|]. split; [done|]. split; [exact E|]. intros; lia.
  Qed.

  Lemma scan_down_ok I p : forall fuel j k v,
    k < j -> j - k <= fuel -> val I k = Some v -> v ≤v p -> (forall q, k <= q < j -> is_Some (val I q)) ->
    exists j' w, scan_down ltb fuel A I p j = Some j' /\ k <= j' < j /\ val I j' = Some w /\ w ≤v p /\
      (forall q u, j' < q < j -> val I q = Some u -> p ≤v u).
  Proof.
    induction fuel as [|fuel IH]; intros j k v Hik Hf Hk Hp Hval; [lia|].
    destruct j as [|j]; [lia|].
    cbn [scan_down]. destruct (Hval j) as [u Hu]; [lia|].
    pose proof Hu as Hu'. unfold val in Hu'. unfold rd. destruct (I !! j) as [a|]; [|done]. cbn [mbind option_bind] in *.
    rewrite Hu'. cbn [mbind option_bind]. destruct (ltb p u) eqn:E.
    - assert (j <> k). { intros ->. rewrite Hk in Hu. simplify_eq. unfold leP in Hp. congruence. }
      destruct (IH j k v) as (j' & w & Hsc & Hj' & Hw & Hpw & Hall); [lia|lia|done|done| |].
      { intros q Hq. apply Hval. lia. }
      exists j', w. split; [exact Hsc|]. split; [lia|]. split; [done|]. split; [done|].
      intros q t Hq Ht. destruct (decide (q = j)) as [->|]; [|apply (Hall q); [lia|done]].
      rewrite Hu in Ht. simplify_eq. by apply ltb_leP.
    - exists j, u. split; [done|]. split; [lia|]. split; [done|]. split; [exact E|]. intros; lia.
  Qed.

  Lemma val_length I k v : val I k = Some v -> k < length I.
  Proof. unfold val. destruct (I !! k) eqn:E; [|done]. intros _. by eapply lookup_lt_Some. Qed.

  Lemma valid_seg_perm lo hi I I' : seg_perm lo hi I I' -> valid I lo hi -> valid I' lo hi.
  Proof.
    intros HP HV k Hk. destruct HP as (L & f & Hf & Hfo & Hfl).
    assert (lo <= f k <= hi).
    { destruct (decide (lo <= f k <= hi)) as [|Hn]; [done|]. exfalso.
      assert (f (f k) = f k) by (apply Hfo; lia). apply Hf in H. lia. }
    unfold val. rewrite Hfl. apply HV. done.
  Qed.

  Lemma val_swap I i j x y k : I !! i = Some x -> I !! j = Some y ->
    val (<[j := x]> (<[i := y]> I)) k = if decide (k = j) then val I i else if decide (k = i) then val I j else val I k.
  Proof.
    intros Hx Hy. unfold val.
    assert (i < length I) by by eapply lookup_lt_Some.
    assert (j < length I) by by eapply lookup_lt_Some.
    case_decide; subst.
    - rewrite list_lookup_insert by (rewrite insert_length; done). by rewrite Hx.
    - rewrite list_lookup_insert_ne by done. case_decide; subst.
      + rewrite list_lookup_insert by done. by rewrite Hy.
      + by rewrite list_lookup_insert_ne by done.
  Qed.

  (** Invariant of the Hoare loop. *)
  Definition part_inv lo hi p I i j : Prop :=
    valid I lo hi /\ hi < length I /\ lo <= i /\ i <= j /\ j <= hi + 1 /\
    (forall q u, lo <= q < i -> val I q = Some u -> u ≤v p) /\
    (forall q u, j <= q <= hi -> val I q = Some u -> p ≤v u).
  Definition part_post lo hi p I j : Prop :=
    (forall q u, lo <= q <= j -> val I q = Some u -> u ≤v p) /\
    (forall q u, j < q <= hi -> val I q = Some u -> p ≤v u).

  Lemma partition_step lo hi p I i j ku vu kd vd :
    part_inv lo hi p I i j ->
    i <= ku <= hi -> val I ku = Some vu -> p ≤v vu ->
    lo <= kd < j -> val I kd = Some vd -> vd ≤v p ->
    exists i' j', scan_up ltb (length I + 1) A I p i = Some i' /\
      scan_down ltb (length I + 1) A I p j = Some j' /\
      i <= i' <= ku /\ kd <= j' < j /\
      (j' <= i' -> part_post lo hi p I j') /\
      (i' < j' -> exists t u, I !! i' = Some t /\ I !! j' = Some u /\
        let I2 := <[j' := t]> (<[i' := u]> I) in
        seg_perm lo hi I I2 /\ part_inv lo hi p I2 (i' + 1) j' /\
        (exists v, val I2 j' = Some v /\ p ≤v v) /\ (exists v, val I2 i' = Some v /\ v ≤v p)).
  Proof.
    intros (HV & Hhi & Hlo & Hij & Hj & HL & HR) Hku Hvu Hpu Hkd Hvd Hpd.
    destruct (scan_up_ok I p (length I + 1) i ku vu) as (i' & w & Eu & Hi' & Hw & Hpw & HupL);
      [lia|lia|done|done| |].
    { intros q Hq. apply HV. lia. }
    destruct (scan_down_ok I p (length I + 1) j kd vd) as (j' & w' & Ed & Hj' & Hw' & Hpw' & HdL);
      [lia|lia|done|done| |].
    { intros q Hq. apply HV. lia. }
    exists i', j'. split; [done|]. split; [done|]. split; [done|]. split; [done|]. split.
    - intros Hle. split.
      + intros q u Hq Hu. destruct (decide (q = j')) as [->|]; [congruence|].
        destruct (decide (q < i)); [apply (HL q); [lia|done]|]. apply (HupL q); [lia|done].
      + intros q u Hq Hu. destruct (decide (j <= q)); [apply (HR q); [lia|done]|].
        apply (HdL q); [lia|done].
    - intros Hlt.
      assert (exists t, I !! i' = Some t) as [t Ht].
      { unfold val in Hw. destruct (I !! i'); [eauto|done]. }
      assert (exists u, I !! j' = Some u) as [u Hu].
      { unfold val in Hw'. destruct (I !! j'); [eauto|done]. }
      exists t, u. split; [done|]. split; [done|]. cbn zeta.
      assert (Hsp : seg_perm lo hi I (<[j' := t]> (<[i' := u]> I))).
      { apply seg_perm_swap; [lia|lia|done|done]. }
      split; [done|]. split; [|split].
      + split_and!; [eapply valid_seg_perm; done| |lia|lia|lia| |].
        * rewrite !insert_length. done.
        * intros q x Hq Hx. rewrite (val_swap I i' j' t u q) in Hx by done.
          rewrite decide_False in Hx by lia. destruct (decide (q = i')); [congruence|].
          destruct (decide (q < i)); [apply (HL q); [lia|done]|]. apply (HupL q); [lia|done].
        * intros q x Hq Hx. rewrite (val_swap I i' j' t u q) in Hx by done.
          destruct (decide (q = j')); [congruence|]. rewrite decide_False in Hx by lia.
          destruct (decide (j <= q)); [apply (HR q); [lia|done]|]. apply (HdL q); [lia|done].
      + rewrite (val_swap I i' j' t u j') by done. rewrite decide_True by done. eauto.
      + rewrite (val_swap I i' j' t u i') by done. rewrite decide_False by lia.
        rewrite decide_True by done. eauto.
  Qed.

  Lemma partition_ok lo hi p : forall fuel I i j,
    part_inv lo hi p I i j -> j - i < fuel -> j <= hi ->
    (exists v, val I j = Some v /\ p ≤v v) ->
    (exists k v, lo <= k < j /\ val I k = Some v /\ v ≤v p) ->
    exists I' j', partition_loop ltb fuel A I p i j = Some (I', j') /\ seg_perm lo hi I I' /\
      lo <= j' < j /\ part_post lo hi p I' j'.
  Proof.
    induction fuel as [|fuel IH]; intros I i j HI Hf Hjh (vu & Hvu & Hpu) (kd & vd & Hkd & Hvd & Hpd); [lia|].
    cbn [partition_loop].
    pose proof HI as (HV & Hhi & Hlo & Hij & Hj & HL & HR).
    destruct (partition_step lo hi p I i j j vu kd vd) as (i' & j' & Eu & Ed & Hi' & Hj' & Hdone & Hgo);
      [done|lia|done|done|lia|done|done|].
    rewrite Eu. cbn [mbind option_bind]. rewrite Ed. cbn [mbind option_bind]. case_decide as Hc.
    - exists I, j'. split; [done|]. split; [apply seg_perm_refl|]. split; [lia|]. by apply Hdone.
    - destruct Hgo as (t & u & Ht & Hu & Hsp & HI2 & HU2 & (v2 & Hv2 & Hp2)); [lia|].
      unfold rd. rewrite Ht, Hu. cbn [mbind option_bind].
      rewrite wr_Some by lia. cbn [mbind option_bind]. rewrite wr_Some by (rewrite insert_length; lia).
      cbn [mbind option_bind].
      destruct (IH (<[j' := t]> (<[i' := u]> I)) (i' + 1) j') as (I' & j'' & E & Hsp2 & Hj'' & Hpost);
        [done|lia|lia|done| |].
      { exists i', v2. split; [lia|]. done. }
      exists I', j''. split; [done|]. split; [by eapply seg_perm_trans|]. split; [lia|done].
  Qed.

  Lemma partition_top lo hi mid p I :
    valid I lo hi -> hi < length I -> lo <= mid < hi -> val I mid = Some p ->
    exists I' j', partition_loop ltb (length I + 1) A I p lo (hi + 1) = Some (I', j') /\
      seg_perm lo hi I I' /\ lo <= j' < hi /\ part_post lo hi p I' j'.
  Proof.
    intros HV Hhi Hmid Hp. replace (length I + 1) with (S (length I)) by lia. cbn [partition_loop].
    destruct (partition_step lo hi p I lo (hi + 1) mid p mid p)
      as (i' & j' & Eu & Ed & Hi' & Hj' & Hdone & Hgo);
      [|lia|done|by apply leP_refl|lia|done|by apply leP_refl|].
    { split_and!; try done; try lia; intros; lia. }
    rewrite Eu. cbn [mbind option_bind]. rewrite Ed. cbn [mbind option_bind]. case_decide as Hc.
    - exists I, j'. split; [done|]. split; [apply seg_perm_refl|]. split; [lia|]. by apply Hdone.
    - destruct Hgo as (t & u & Ht & Hu & Hsp & HI2 & HU2 & (v2 & Hv2 & Hp2)); [lia|].
      unfold rd. rewrite Ht, Hu. cbn [mbind option_bind].
      rewrite wr_Some by lia. cbn [mbind option_bind]. rewrite wr_Some by (rewrite insert_length; lia).
      cbn [mbind option_bind].
      destruct (partition_ok lo hi p (length I) (<[j' := t]> (<[i' := u]> I)) (i' + 1) j')
        as (I' & j'' & E & Hsp2 & Hj'' & Hpost); [done|lia|lia|done| |].
      { exists i', v2. split; [lia|]. done. }
      exists I', j''. split; [done|]. split; [by eapply seg_perm_trans|]. split; [lia|done].
  Qed.

  Definition sorted_seg (I : list nat) (lo hi : nat) : Prop :=
    forall a b u v, lo <= a <= b -> b <= hi -> val I a = Some u -> val I b = Some v -> u ≤v v.

  Lemma val_outside lo hi I I' k : seg_perm lo hi I I' -> k < lo \/ hi < k -> val I' k = val I k.
  Proof. intros HP Hk. unfold val. by rewrite (seg_perm_outside lo hi I I' HP k Hk). Qed.

  Lemma val_inside lo hi I I' k v : seg_perm lo hi I I' -> lo <= k <= hi -> val I' k = Some v ->
    exists k', lo <= k' <= hi /\ val I k' = Some v.
  Proof.
    intros HP Hk Hv. unfold val in Hv. destruct (I' !! k) as [a|] eqn:Ea; [|done].
    destruct (seg_perm_inside lo hi I I' HP k a Hk Ea) as (k' & Hk' & Ek'). exists k'. split; [done|].
    unfold val. rewrite Ek'. done.
  Qed.

  Lemma quick_sort_ok : forall fuel I lo hi,
    valid I lo hi -> hi < length I -> hi + 1 - lo < fuel ->
    exists I', quick_sort ltb fuel A I lo hi = Some I' /\ seg_perm lo hi I I' /\ sorted_seg I' lo hi.
  Proof.
    induction fuel as [|fuel IH]; intros I lo hi HV Hhi Hf; [lia|].
    cbn [quick_sort]. case_decide as Hlt.
    - set (mid := lo + (hi - lo) / 2).
      assert (Hmid : lo <= mid < hi).
      { unfold mid. pose proof (Nat.div_lt (hi - lo) 2). lia. }
      destruct (HV mid) as [p Hp]; [lia|]. pose proof Hp as Hp'. unfold val in Hp'. unfold rd.
      destruct (I !! mid) as [a|]; [|done]. cbn [mbind option_bind] in *. rewrite Hp'.
      cbn [mbind option_bind].
      destruct (partition_top lo hi mid p I) as (I1 & j & E & Hsp & Hj & HpostL & HpostR); [done..|].
      rewrite E. cbn [mbind option_bind fst snd].
      assert (HV1 : valid I1 lo hi) by by eapply valid_seg_perm.
      assert (Hlen1 : length I1 = length I) by apply Hsp.
      destruct (IH I1 lo j) as (I2 & E2 & Hsp2 & Hs2); [|lia|lia|].
      { intros k Hk. apply HV1. lia. }
      rewrite E2. cbn [mbind option_bind].
      assert (Hlen2 : length I2 = length I1) by apply Hsp2.
      destruct (IH I2 (j + 1) hi) as (I3 & E3 & Hsp3 & Hs3); [|lia|lia|].
      { intros k Hk. rewrite (val_outside lo j I1 I2) by (done || lia). apply HV1. lia. }
      exists I3. split; [done|]. split.
      { eapply seg_perm_trans; [done|]. eapply seg_perm_trans.
        - eapply (seg_perm_mono lo j); [| |done]; lia.
        - eapply (seg_perm_mono (j + 1) hi); [| |done]; lia. }
      (* sortedness *)
      assert (HleftP : forall q u, lo <= q <= j -> val I3 q = Some u -> u ≤v p).
      { intros q u Hq Hu. rewrite (val_outside (j + 1) hi I2 I3) in Hu by (done || lia).
        destruct (val_inside lo j I1 I2 q u) as (k' & Hk' & Hv'); [done..|]. by apply (HpostL k'). }
      assert (HrightP : forall q u, j < q <= hi -> val I3 q = Some u -> p ≤v u).
      { intros q u Hq Hu. destruct (val_inside (j + 1) hi I2 I3 q u) as (k' & Hk' & Hv'); [done|lia|done|].
        rewrite (val_outside lo j I1 I2) in Hv' by (done || lia). apply (HpostR k'); [lia|done]. }
      intros x y u v Hxy Hy Hu Hv.
      destruct (decide (y <= j)) as [Hyj|Hyj].
      + rewrite (val_outside (j + 1) hi I2 I3) in Hu, Hv by (done || lia).
        apply (Hs2 x y); [lia|lia|done|done].
      + destruct (decide (x <= j)) as [Hxj|Hxj].
        * eapply leP_trans; [done|apply (HleftP x); [lia|done]|apply (HrightP y); [lia|done]].
        * apply (Hs3 x y); [lia|lia|done|done].
    - exists I. split; [done|]. split; [apply seg_perm_refl|].
      intros x y u v Hxy Hy Hu Hv. assert (x = y) by lia. subst. rewrite Hu in Hv. simplify_eq.
      by apply leP_refl.
  Qed.
End qs.

Lemma seg_perm_take_drop lo hi I I' : seg_perm lo hi I I' ->
  I' ≡ₚ I /\ take lo I' = take lo I /\ drop (hi + 1) I' = drop (hi + 1) I.
Proof.
  intros HP. split; [by eapply seg_perm_perm|]. split.
  - apply list_eq. intros k. destruct (decide (k < lo)).
    + rewrite !lookup_take by done. apply (seg_perm_outside lo hi); [done|lia].
    + rewrite !lookup_take_ge by lia. done.
  - apply list_eq. intros k. rewrite !lookup_drop. apply (seg_perm_outside lo hi); [done|lia].
Qed.

(** ** merge sort *)
Lemma merge_loop_perm : forall l r, merge_loop l r ≡ₚ map snd l ++ map snd r.
Proof.
  induction l as [|x l IHl]; intros r.
  - destruct r; done.
  - induction r as [|y r IHr].
    + cbn. by rewrite app_nil_r.
    + cbn. destruct (x.1 <=? y.1)%Z.
      * rewrite IHl. done.
      * cbn in IHr. rewrite IHr. cbn. apply (Permutation_middle (x.2 :: map snd l) (map snd r) y.2).
Qed.

Lemma merge_seg_perm den values ind left middle right :
  left <= middle < right -> right < length ind -> right < length values ->
  exists ind', merge_seg den values ind left middle right = Some ind' /\ ind' ≡ₚ ind /\
    take left ind' = take left ind /\ drop (right + 1) ind' = drop (right + 1) ind.
Proof.
  intros H1 H2 H3. unfold merge_seg. rewrite decide_True by (split_and!; lia).
  eexists. split; [done|].
  set (M := merge_loop _ _).
  assert (HM : M ≡ₚ take (middle + 1 - left) (drop left ind) ++ take (right + 1 - (middle + 1)) (drop (middle + 1) ind)).
  { unfold M. rewrite merge_loop_perm. rewrite <- !list_fmap_alt || idtac.
    assert (Hz : forall (a : list Z) (b : list nat), length a = length b -> map snd (zip a b) = b).
    { intros a b Hab. change (map snd (zip a b)) with (snd <$> zip a b). apply snd_zip. lia. }
    rewrite !Hz; [done| |]; rewrite map_length, !take_length, !drop_length; lia. }
  assert (Hl : length M = right + 1 - left).
  { rewrite HM, app_length, !take_length, !drop_length. lia. }
  assert (Hsplit : ind = take left ind ++ (take (middle + 1 - left) (drop left ind) ++ take (right + 1 - (middle + 1)) (drop (middle + 1) ind)) ++ drop (right + 1) ind).
  { rewrite <- (take_drop left ind) at 1. f_equal.
    rewrite <- (take_drop (middle + 1 - left) (drop left ind)) at 1. rewrite <- app_assoc. f_equal.
    rewrite drop_drop. replace (left + (middle + 1 - left)) with (middle + 1) by lia.
    rewrite <- (take_drop (right + 1 - (middle + 1)) (drop (middle + 1) ind)) at 1. f_equal.
    rewrite drop_drop. f_equal. lia. }
  split; [|split].
  - rewrite HM, <- Hsplit. done.
  - rewrite take_app_le by (rewrite take_length; lia). rewrite take_take. f_equal. lia.
  - rewrite app_assoc. rewrite drop_app_alt; [done|]. rewrite app_length, take_length, Hl. lia.
Qed.

Lemma merge_sort_perm den : forall fuel values ind low high,
  high < length ind -> high < length values -> high + 1 - low < fuel ->
  exists ind', merge_sort den fuel values ind low high = Some ind' /\ ind' ≡ₚ ind /\
    take low ind' = take low ind /\ drop (high + 1) ind' = drop (high + 1) ind.
Proof.
  induction fuel as [|fuel IH]; intros values ind low high H1 H2 Hf; [lia|].
  cbn [merge_sort]. case_decide as Hlt; [|eauto 10].
  set (mid := low + (high - low) / 2).
  assert (Hmid : low <= mid < high).
  { unfold mid. pose proof (Nat.div_lt (high - low) 2). lia. }
  destruct (IH values ind low mid) as (i1 & E1 & P1 & T1 & D1); [lia..|].
  cbn zeta. fold mid. rewrite E1. cbn [mbind option_bind].
  assert (L1 : length i1 = length ind) by by rewrite P1.
  destruct (IH values i1 (mid + 1) high) as (i2 & E2 & P2 & T2 & D2); [lia..|].
  rewrite E2. cbn [mbind option_bind].
  assert (L2 : length i2 = length i1) by by rewrite P2.
  destruct (merge_seg_perm den values i2 low mid high) as (i3 & E3 & P3 & T3 & D3); [lia..|].
  exists i3. split; [done|]. split; [by rewrite P3, P2, P1|]. split.
  - rewrite T3, <- T1.
    replace (take low i2) with (take low (take (mid + 1) i2)) by (rewrite take_take; f_equal; lia).
    rewrite T2, take_take. f_equal. lia.
  - rewrite D3, D2. 
    replace (drop (high + 1) i1) with (drop (high - mid) (drop (mid + 1) i1)) by (rewrite drop_drop; f_equal; lia).
    rewrite D1, drop_drop. f_equal. lia.
Qed.

(** ** argmax *)
Section am.
  Context {V : Type} (ltb : V -> V -> bool) (Hs : strict_weak_order ltb).
  Local Notation "x ≤v y" := (leP ltb x y) (at level 70).

  (** [b] is the first position in [v] holding a maximum among the first n entries *)
  Definition best (v : list V) (n b : nat) (m : V) : Prop :=
    v !! b = Some m /\ b < n /\ (forall k u, k < n -> v !! k = Some u -> u ≤v m) /\
    (forall k u, k < b -> v !! k = Some u -> ltb u m = true).

  Lemma argmax_fold v : forall l pre b m,
    v = pre ++ l -> best v (length pre) b m ->
    exists b' m', foldl (argmax_step ltb) (b, m) (imap (fun i x => (length pre + i, x)) l) = (b', m') /\
      best v (length v) b' m'.
  Proof.
    induction l as [|x l IH]; intros pre b m Hv Hb.
    - rewrite app_nil_r in Hv. subst. exists b, m. done.
    - cbn. unfold argmax_step at 2. cbn [fst snd].
      assert (Hx : v !! (length pre + 0) = Some x).
      { rewrite Hv, Nat.add_0_r. rewrite lookup_app_r by lia. by rewrite Nat.sub_diag. }
      specialize (IH (pre ++ [x])). rewrite app_length in IH. cbn [length] in IH.
      destruct Hb as (Hb1 & Hb2 & Hb3 & Hb4).
      assert (Eq : imap ((λ i x, (length pre + i, x)) ∘ S) l = imap (λ i x, (length pre + 1 + i, x)) l).
      { apply imap_ext. intros i y _. cbn. f_equal. lia. }
      destruct (ltb m x) eqn:E.
      + destruct (IH (length pre + 0) x) as (b' & m' & Hf & Hbest).
        * by rewrite <- app_assoc.
        * split; [done|]. split; [lia|]. split.
          -- intros k u Hk Hu. destruct (decide (k < length pre)) as [Hlt|].
             ++ eapply leP_trans; [done|by apply (Hb3 k)|by apply ltb_leP].
             ++ assert (k = length pre + 0) by lia. subst k. rewrite Hx in Hu. simplify_eq. by apply leP_refl.
          -- intros k u Hk Hu. eapply le_lt_trans; [done|apply (Hb3 k); [lia|done]|done].
        * exists b', m'. split; [|done]. rewrite <- Hf. f_equal. exact Eq.
      + destruct (IH b m) as (b' & m' & Hf & Hbest).
        * by rewrite <- app_assoc.
        * split; [done|]. split; [lia|]. split; [|done].
          intros k u Hk Hu. destruct (decide (k < length pre)) as [Hlt|]; [by apply (Hb3 k)|].
          assert (k = length pre + 0) by lia. subst k. rewrite Hx in Hu. simplify_eq. done.
        * exists b', m'. split; [|done]. rewrite <- Hf. f_equal. exact Eq.
  Qed.

  Lemma argmax_ok v : v <> [] -> exists b m, argmax ltb v = Z.of_nat b /\ best v (length v) b m.
  Proof.
    destruct v as [|x l]; [done|]. intros _. unfold argmax. cbn [imap foldl].
    destruct (argmax_fold (x :: l) l [x] 0 x) as (b & m & Hf & Hb).
    - done.
    - split; [done|]. split; [cbn; lia|]. split.
      + intros k u Hk Hu. cbn in Hk. assert (k = 0) by lia. subst. cbn in Hu. simplify_eq. by apply leP_refl.
      + intros; lia.
    - exists b, m. split; [|done].
      unfold argmax_step at 2. cbn [fst snd]. 
      assert (ltb x x = false) as -> by apply Hs.
      replace (imap (pair ∘ S) l) with (imap (λ i x0, (length [x] + i, x0)) l) by (apply imap_ext; done).
      by rewrite Hf.
  Qed.
End am.
