(** The sequential and the multithreaded sum over a list of copies *)
From Verif Require Import NumLib BaseLemmas RealSum Upd_Model Upd_Spec Net_Model Net_Spec Net_Proofs Net_Clip Sum_Model Sum_Spec Sum_Threads Sum_Proofs.
Open Scope nat_scope.

Lemma NoDup_pick {A} (l : list (list A)) i j x y : NoDup (concat l) -> l !! i = Some x -> l !! j = Some y -> i <> j -> NoDup x /\ (forall a, a ∈ x -> a ∉ y).
Proof.
  revert i j. induction l as [|z l IH]; intros i j Hn Hi Hj Hij; [done|]. cbn in Hn. apply list.NoDup_app in Hn as (Hz & Hd & Hn).
  assert (Hin : forall k u a, l !! k = Some u -> a ∈ u -> a ∈ concat l).
  { intros k u a Hk Ha. apply elem_of_list_In, in_concat. exists u. split; apply elem_of_list_In; [by eapply elem_of_list_lookup_2|done]. }
  destruct i as [|i], j as [|j]; cbn in Hi, Hj; [done|..].
  - injection Hi as ->. split; [done|]. intros a Ha Hay. by eapply Hd, Hin.
  - injection Hj as ->. split.
    + clear -Hn Hi. revert i Hi. induction l as [|u l IH]; intros i Hi; [done|]. cbn in Hn. apply list.NoDup_app in Hn as (Hu & _ & Hn). destruct i; cbn in Hi; [by injection Hi as ->|by eapply IH].
    + intros a Ha Hay. by eapply Hd, Hin.
  - eapply IH; [done|done|done|lia].
Qed.
Definition apart (A : list nat) (s s' : nat -> nat) : Prop := forall a a', a ∈ A -> a' ∈ A -> s a <> s' a'.
Lemma apart_sym A s s' : apart A s s' -> apart A s' s.
Proof. intros H a a' Ha Ha' E. by eapply (H a' a). Qed.
Lemma separate_pick A ss i j s s' : separate A ss -> ss !! i = Some s -> ss !! j = Some s' -> i <> j -> NoDup (map s A) /\ NoDup (map s' A) /\ apart A s s'.
Proof.
  intros Hs Hi Hj Hij. unfold separate in Hs.
  assert (Li : map (fun s => map s A) ss !! i = Some (map s A)) by (by rewrite list_lookup_fmap, Hi).
  assert (Lj : map (fun s => map s A) ss !! j = Some (map s' A)) by (by rewrite list_lookup_fmap, Hj).
  destruct (NoDup_pick _ i j _ _ Hs Li Lj Hij) as [N1 D]. destruct (NoDup_pick _ j i _ _ Hs Lj Li) as [N2 _]; [lia|].
  split_and!; [done..|]. intros a a' Ha Ha' E. apply (D (s a)); apply elem_of_list_fmap; [by exists a|by exists a'].
Qed.
Lemma separate_two A s s' : NoDup (map s A) -> NoDup (map s' A) -> apart A s s' -> separate A [s; s'].
Proof.
  intros H1 H2 Hd. unfold separate. cbn. rewrite app_nil_r. apply list.NoDup_app. split_and!; [done| |done]. intros x Hx Hx'.
  apply elem_of_list_fmap in Hx as (a & -> & Ha). apply elem_of_list_fmap in Hx' as (a' & E & Ha'). by apply (Hd a a' Ha Ha').
Qed.
Lemma separate_app A l1 l2 : separate A (l1 ++ l2) -> separate A l1 /\ separate A l2 /\ forall a, a ∈ copies_at A l1 -> a ∉ copies_at A l2.
Proof. unfold separate, copies_at. rewrite map_app, concat_app. intros H. apply list.NoDup_app in H as (H1 & H2 & H3). done. Qed.
Lemma in_copies A ss s a : s ∈ ss -> a ∈ A -> s a ∈ copies_at A ss.
Proof. intros Hs Ha. apply elem_of_list_In, in_concat. exists (map s A). split; apply elem_of_list_In; apply elem_of_list_fmap; [by exists s|by exists a]. Qed.
Lemma copies_in A ss x : x ∈ copies_at A ss -> exists s a, s ∈ ss /\ a ∈ A /\ x = s a.
Proof.
  unfold copies_at. intros H. apply elem_of_list_In, in_concat in H as (l & Hl & Hx). apply in_map_iff in Hl as (s & <- & Hs). apply in_map_iff in Hx as (a & <- & Ha).
  apply elem_of_list_In in Hs, Ha. by exists s, a.
Qed.
Lemma copies_app A l1 l2 : copies_at A (l1 ++ l2) = copies_at A l1 ++ copies_at A l2.
Proof. unfold copies_at. by rewrite map_app, concat_app. Qed.
Lemma copies_sub A l1 l2 : l1 ⊆ l2 -> copies_at A l1 ⊆ copies_at A l2.
Proof. intros H x Hx. apply copies_in in Hx as (s & a & Hs & Ha & ->). apply in_copies; [by apply H|done]. Qed.
Lemma mv_apart A s s' p p' : apart A s s' -> p.1.1 ∈ A -> p'.1.1 ∈ A -> mv s p' <> mv s' p.
Proof. intros Hd Hp Hp' E. apply (Hd p'.1.1 p.1.1 Hp' Hp). by injection E. Qed.
Lemma mv_inj A s p p' : NoDup (map s A) -> p.1.1 ∈ A -> p'.1.1 ∈ A -> mv s p' = mv s p -> p' = p.
Proof.
  intros Hn Hp Hp' E. injection E as E1 E2 E3. destruct p as [[a nm] i], p' as [[a' nm'] i']. cbn in *. subst. f_equal. f_equal.
  apply elem_of_list_lookup in Hp as [k Hk], Hp' as [k' Hk'].
  assert (k' = k).
  { eapply (NoDup_lookup (map s A)); [done| |]; rewrite list_lookup_fmap; [rewrite Hk'|rewrite Hk]; cbn; [done|by rewrite E1]. }
  subst. rewrite Hk in Hk'. by injection Hk'.
Qed.

(** a program that makes the copy s hold f, changing only layers in B *)
Definition result (L : list slot) (s : nat -> nat) (f : slot -> R) (B : list nat) (h h' : heap) : Prop :=
  (forall a nm, length (h' a nm) = length (h a nm)) /\ (forall p, p ∈ L -> get h' (mv s p) = f p) /\ only B h h'.
Definition adds (A : list nat) (G L : list slot) (add : (nat -> nat) -> (nat -> nat) -> (nat -> nat) -> prog) : Prop :=
  forall s1 s2 s3 h, s3 = s1 \/ s3 = s2 -> NoDup (map s1 A) -> NoDup (map s2 A) -> apart A s1 s2 -> allocated h (map (mv s1) G) -> allocated h (map (mv s2) G) ->
  exists h', run (add s1 s2 s3) h = Some h' /\ result L s3 (fun p => get h (mv s1 p) + get h (mv s2 p))%R (map s3 A) h h'.
Lemma Accs_adds A G L add : NoDup L -> L ⊆ G -> (forall p, p ∈ L -> p.1.1 ∈ A) -> (forall s1 s2 s3 sz, Accs s1 s2 s3 sz (add s1 s2 s3) L) -> adds A G L add.
Proof.
  intros Hn HG HA Hacc s1 s2 s3 h H3 N1 N2 Hd G1 G2. set (sz := fun a nm => length (h a nm)).
  assert (Hf : forall s p, allocated h (map (mv s) G) -> p ∈ L -> p.2 < sz (s p.1.1) p.1.2).
  { intros s p Hs Hp. unfold allocated in Hs. rewrite list.Forall_forall in Hs. apply (Hs (mv s p)). apply elem_of_list_fmap. exists p. split; [done|by apply HG]. }
  assert (F : fits3 s1 s2 s3 sz L) by (intros p Hp; split_and!; [by apply Hf..|destruct H3 as [-> | ->]; by apply Hf]).
  exists (acc_all s1 s2 s3 L h). split; [by apply (Hacc s1 s2 s3 sz F h)|]. split_and!.
  - by apply (acc_shaped s1 s2 s3 sz).
  - intros p Hp. apply (get_acc s1 s2 s3 sz); try done. intros q q' Hq Hq' Hne. apply HA in Hq as Aq. apply HA in Hq' as Aq'.
    assert (D2 := apart_sym _ _ _ Hd).
    destruct H3 as [-> | ->]; split_and!; first [by apply (mv_apart A) | intros E; apply Hne; symmetry; revert E; by apply (mv_inj A)].
  - by apply acc_only.
Qed.
Lemma result_get L (A : list nat) s f B h h' s' p : result L s f B h h' -> (forall p, p ∈ L -> p.1.1 ∈ A) -> p ∈ L -> (forall a, a ∈ A -> s' a ∉ B) -> get h' (mv s' p) = get h (mv s' p).
Proof. intros (_ & _ & Ho) HA Hp Hd. unfold get. cbn [mv fst snd]. rewrite Ho; [done|]. by apply Hd, HA. Qed.
Lemma result_alloc L s f B h h' S : result L s f B h h' -> allocated h S -> allocated h' S.
Proof. intros (Hl & _) H. unfold allocated in *. eapply list.Forall_impl; [exact H|]. cbn. intros p. by rewrite Hl. Qed.

Lemma each_map {X Y} (g : X -> Y) l f : each (map g l) f = each l (fun x => f (g x)).
Proof. induction l as [|x l IH]; [done|]. change (seq (f (g x)) (each (map g l) f) = seq (f (g x)) (each l (fun x => f (g x)))). by rewrite IH. Qed.
Section red.
Context {T : Type} (add : T -> T -> T -> prog) (acc : T -> T -> prog) (rel : (nat -> nat) -> T) (A : list nat) (G L : list slot).
Context (HA : forall p, p ∈ L -> p.1.1 ∈ A).
Context (Hadd : adds A G L (fun s1 s2 s3 => add (rel s1) (rel s2) (rel s3))).
Context (Hacc : forall s s' h, NoDup (map s A) -> NoDup (map s' A) -> apart A s s' -> allocated h (map (mv s) G) -> allocated h (map (mv s') G) ->
  exists h', run (acc (rel s) (rel s')) h = Some h' /\ result L s' (fun p => get h (mv s' p) + get h (mv s p))%R (map s' A) h h').
Notation alloc h s := (allocated h (map (mv s) G)).
Notation val h p ss := (suml (map (fun s => get h (mv s p)) ss)).

Lemma each_sum ss s0 h : separate A (s0 :: ss) -> copies_allocated h G (s0 :: ss) ->
  exists h', run (each ss (fun s => acc (rel s) (rel s0))) h = Some h' /\ result L s0 (fun p => get h (mv s0 p) + val h p ss)%R (map s0 A) h h'.
Proof.
  revert h. induction ss as [|s ss IH]; intros h Hs Ha.
  - exists h. split; [done|]. split_and!; [done| |by intros ? ? ?]. intros p Hp. cbn. unfold suml. cbn. lra.
  - destruct (separate_pick A (s0 :: s :: ss) 0 1 s0 s) as (N0 & N1 & D); [done..|].
    assert (A0 := Ha). apply list.Forall_cons in A0 as [A0 A1]. apply list.Forall_cons in A1 as [A1 A2].
    destruct (Hacc s s0 h N1 N0 (apart_sym _ _ _ D) A1 A0) as (h1 & E1 & R1).
    destruct (IH h1) as (h2 & E2 & R2).
    { unfold separate in *. cbn in *. rewrite app_assoc in Hs. rewrite (Permutation_app_comm (map s0 A)) in Hs. rewrite <- app_assoc in Hs. by apply list.NoDup_app in Hs as (_ & _ & ?). }
    { apply list.Forall_cons. split; [by eapply result_alloc|]. eapply list.Forall_impl; [exact A2|]. intros s' H'. by eapply result_alloc. }
    exists h2. split; [cbn [each fold_right]; rewrite run_seq, E1; exact E2|]. destruct R2 as (L2 & V2 & O2). pose proof R1 as (L1 & V1 & O1). split_and!.
    + intros a nm. by rewrite L2.
    + intros p Hp. rewrite V2, V1 by done. cbn [map]. rewrite suml_cons. rewrite Rplus_assoc. f_equal. f_equal. apply suml_map_ext. intros s' Hs'.
      eapply result_get; [exact R1|exact HA|done|]. intros a Hin Hx. apply elem_of_list_fmap in Hx as (a' & E & Ha').
      apply elem_of_list_lookup in Hs' as [k Hk]. destruct (separate_pick A (s0 :: s :: ss) 0 (2 + k) s0 s') as (_ & _ & X); [done..|lia|]. by apply (X a' a).
    + intros a nm Hn. rewrite O2 by done. by apply O1.
Qed.

Lemma at_map k i s ss : ss !! i = Some s -> at_ (map rel ss) i k = k (rel s).
Proof using Type. clear HA Hadd Hacc. intros E. unfold at_. by rewrite list_lookup_fmap, E. Qed.
Lemma take_lookup (ss : list (nat -> nat)) n i : i < n -> take n ss !! i = ss !! i.
Proof using Type. clear HA Hadd Hacc. intros H. by apply lookup_take. Qed.

Lemma reduce_eq fuel batch m n d : 4 <= n -> reduce add acc (S fuel) batch m n d =
  at_ batch 0 (fun t1 => at_ batch (n / 2) (fun t2 => Par (reduce add acc fuel batch t1 (n / 2) (S d)) (reduce add acc fuel (drop (n / 2) batch) t2 (n - n / 2) (S d))
    (seq (add t1 t2 t1) (if decide (d = 0) then add t1 m m else Done)))).
Proof using Type. clear HA Hadd Hacc. intros H. do 4 (destruct n as [|n]; [lia|]). cbn [reduce]. destruct (decide (d = 0 /\ S (S (S (S n))) <= 3)); [lia|done]. Qed.
Lemma half n : 4 <= n -> 2 <= n / 2 /\ 2 <= n - n / 2 /\ n / 2 < n.
Proof using Type. clear HA Hadd Hacc. intros H. assert (n / 2 < n) by (apply Nat.div_lt; lia). pose proof (Nat.div_mod n 2). pose proof (Nat.mod_upper_bound n 2). lia. Qed.
Lemma take_split (ss : list (nat -> nat)) n : take n ss = take (n / 2) ss ++ take (n - n / 2) (drop (n / 2) ss).
Proof using Type. clear HA Hadd Hacc.
  rewrite take_drop_commute. rewrite <- (take_drop (n / 2) (take n ss)). rewrite take_take.
  assert (n / 2 <= n) by (apply Nat.div_le_upper_bound; lia). rewrite Nat.min_l by lia. by replace (n / 2 + (n - n / 2)) with n by lia.
Qed.

(** the two threads and the join *)
Lemma halves ss n h s t p1 p2 : 4 <= n <= length ss -> ss !! 0 = Some s -> ss !! (n / 2) = Some t -> separate A (take n ss) -> copies_allocated h G (take n ss) ->
  (forall h, copies_allocated h G (take (n / 2) ss) -> exists h', run p1 h = Some h' /\ result L s (fun p => val h p (take (n / 2) ss)) (copies_at A (take (n / 2) ss)) h h') ->
  (forall h, copies_allocated h G (take (n - n / 2) (drop (n / 2) ss)) -> exists h', run p2 h = Some h' /\
     result L t (fun p => val h p (take (n - n / 2) (drop (n / 2) ss))) (copies_at A (take (n - n / 2) (drop (n / 2) ss))) h h') ->
  exists h', run (Par p1 p2 (add (rel s) (rel t) (rel s))) h = Some h' /\ result L s (fun p => val h p (take n ss)) (copies_at A (take n ss)) h h'.
Proof.
  intros Hn Es Et Hsep Hal H1 H2. destruct (half n) as (B1 & B2 & B3); [lia|]. destruct (separate_pick A (take n ss) 0 (n / 2) s t) as (N1 & N2 & D); [done|by rewrite take_lookup by lia|by rewrite take_lookup by lia|lia|].
  rewrite (take_split ss n) in Hsep, Hal |- *. set (l1 := take (n / 2) ss) in *. set (l2 := take (n - n / 2) (drop (n / 2) ss)) in *.
  destruct (separate_app _ _ _ Hsep) as (S1 & S2 & S12). apply list.Forall_app in Hal as [A1 A2].
  destruct (H1 h A1) as (h1 & E1 & R1).
  assert (A2' : copies_allocated h1 G l2) by (eapply list.Forall_impl; [exact A2|]; intros s' H'; by eapply result_alloc).
  destruct (H2 h1 A2') as (h2 & E2 & R2).
  assert (Ms : s ∈ l1) by (apply elem_of_list_lookup; exists 0; unfold l1; by rewrite take_lookup by lia).
  assert (Mt : t ∈ l2) by (apply elem_of_list_lookup; exists 0; unfold l2; rewrite take_lookup by lia; rewrite lookup_drop; by rewrite Nat.add_0_r).
  destruct (Hadd s t s h2) as (h3 & E3 & R3); [by left|done|done|done| | |].
  { eapply result_alloc; [exact R2|]. eapply result_alloc; [exact R1|]. unfold copies_allocated in A1. rewrite list.Forall_forall in A1. by apply A1. }
  { eapply result_alloc; [exact R2|]. unfold copies_allocated in A2'. rewrite list.Forall_forall in A2'. by apply A2'. }
  exists h3. split; [cbn; rewrite E1; cbn; rewrite E2; exact E3|].
  pose proof R1 as (L1 & V1 & O1). pose proof R2 as (L2 & V2 & O2). pose proof R3 as (L3 & V3 & O3). split_and!.
  - intros a nm. by rewrite L3, L2.
  - intros p Hp. rewrite V3 by done. rewrite (V2 p Hp). rewrite map_app, suml_app. f_equal.
    + rewrite <- V1 by done. eapply result_get; [exact R2|exact HA|done|]. intros a Ha Hx. apply (S12 (s a)); [by apply in_copies|done].
    + apply suml_map_ext. intros s' Hs'. eapply result_get; [exact R1|exact HA|done|]. intros a Ha Hx. apply (S12 (s' a)); [done|by apply in_copies].
  - intros a nm Ha. rewrite copies_app in Ha. rewrite O3, O2, O1; [done|set_solver..|]. intros Hx. apply Ha. apply elem_of_app. left. apply elem_of_list_fmap in Hx as (a' & -> & Ha'). by apply in_copies.
Qed.
Lemma reduce_small fuel ss n d m h s : ss !! 0 = Some s -> 1 <= n <= 3 -> n <= length ss -> separate A (take n ss) -> copies_allocated h G (take n ss) ->
  exists h', run (reduce add acc fuel (map rel ss) m n (S d)) h = Some h' /\ result L s (fun p => val h p (take n ss)) (copies_at A (take n ss)) h h'.
Proof.
  intros Es Hn Hl Hsep Hal. destruct ss as [|z ss]; [done|]. cbn in Es. injection Es as ->.
  assert (Hx : n = 1 \/ n = 2 \/ n = 3) by lia. destruct Hx as [-> |[-> | ->]].
  - exists h. split; [by destruct fuel|]. split_and!; [done| |by intros ? ? ?]. intros p Hp. cbn. rewrite take_0. cbn. unfold suml. cbn. lra.
  - destruct ss as [|t ss]; [cbn in Hl; lia|]. rewrite ?firstn_cons, ?take_0 in *. destruct (separate_pick A [s; t] 0 1 s t) as (N1 & N2 & D); [done..|].
    apply list.Forall_cons in Hal as [A1 Hal]. apply list.Forall_cons in Hal as [A2 _].
    destruct (Hadd s t s h (or_introl eq_refl) N1 N2 D A1 A2) as (h' & E & (R1 & R2 & R3)). exists h'. split; [by destruct fuel|]. split_and!; [done| |].
    + intros p Hp. rewrite R2 by done. cbn [map]. rewrite !suml_cons, suml_nil. lra.
    + intros a nm Ha. apply R3. intros Hx. apply Ha. unfold copies_at. cbn. set_solver.
  - destruct ss as [|t [|u ss]]; [cbn in Hl; lia|cbn in Hl; lia|]. rewrite ?firstn_cons, ?take_0 in *.
    destruct (each_sum [t; u] s h Hsep Hal) as (h' & E & (R1 & R2 & R3)). exists h'. split.
    + cbn [each fold_right] in E. destruct fuel; cbn [reduce at_ map lookup list_lookup]; (destruct (decide _); [lia|]); rewrite run_seq in E |- *;
      (destruct (run (acc (rel t) (rel s)) h) as [h1|]; [|done]); cbn [mbind option_bind] in E |- *; rewrite run_seq in E; destruct (run (acc (rel u) (rel s)) h1); done.
    + split_and!; [done| |].
      * intros p Hp. rewrite R2 by done. cbn [map]. rewrite !suml_cons. lra.
      * intros a nm Ha. apply R3. intros Hx. apply Ha. unfold copies_at. cbn. set_solver.
Qed.
Lemma reduce_sum fuel ss n d m h s : ss !! 0 = Some s -> 1 <= n <= length ss -> n <= fuel + 3 -> separate A (take n ss) -> copies_allocated h G (take n ss) ->
  exists h', run (reduce add acc fuel (map rel ss) m n (S d)) h = Some h' /\ result L s (fun p => val h p (take n ss)) (copies_at A (take n ss)) h h'.
Proof.
  revert ss n d m h s. induction fuel as [|fuel IH]; intros ss n d m h s Es Hn Hf Hsep Hal; [apply reduce_small; try done; lia|].
  destruct (decide (4 <= n)) as [H4|H4]; [|apply reduce_small; try done; lia].
  destruct (half n H4) as (B1 & B2 & B3). destruct (lookup_lt_is_Some_2 ss (n / 2)) as [t Et]; [lia|].
  rewrite reduce_eq by done. rewrite (at_map _ 0 s) by done. rewrite (at_map _ (n / 2) t) by done. destruct (decide (S d = 0)); [done|].
  destruct (halves ss n h s t (reduce add acc fuel (map rel ss) (rel s) (n / 2) (S (S d))) (reduce add acc fuel (drop (n / 2) (map rel ss)) (rel t) (n - n / 2) (S (S d)))) as (h' & E & R); [lia|done..| | |].
  - intros h0 Ha0. apply IH; [done|lia|lia| |done]. rewrite take_split in Hsep. by apply separate_app in Hsep as (? & _).
  - intros h0 Ha0. rewrite skipn_map. apply IH; [|rewrite drop_length; lia|lia| |done].
    + rewrite lookup_drop. by rewrite Nat.add_0_r.
    + rewrite take_split in Hsep. by apply separate_app in Hsep as (_ & ? & _).
  - exists h'. split; [|done]. cbn [run] in E |- *. destruct (run (reduce add acc fuel (map rel ss) (rel s) (n / 2) (S (S d))) h) as [h1|]; [|done]. cbn [mbind option_bind] in E |- *.
    destruct (run (reduce _ _ _ _ _ (n - n / 2) _) h1) as [h2|]; [|done]. cbn [mbind option_bind] in E |- *. rewrite run_seq, E. done.
Qed.
(** the whole call, from depth 0 *)
Lemma reduce_top ss s0 h : separate A (s0 :: ss) -> copies_allocated h G (s0 :: ss) ->
  exists h', run (reduce add acc (length ss) (map rel ss) (rel s0) (length ss) 0) h = Some h' /\ result L s0 (fun p => get h (mv s0 p) + val h p ss)%R (copies_at A (s0 :: ss)) h h'.
Proof.
  intros Hsep Hal. destruct (decide (length ss <= 3)) as [H3|H3].
  - destruct (each_sum ss s0 h Hsep Hal) as (h' & E & (R1 & R2 & R3)). exists h'. split.
    + rewrite <- E. assert (Eq : reduce add acc (length ss) (map rel ss) (rel s0) (length ss) 0 = loop (length (map rel ss)) 0 (fun i => at_ (map rel ss) i (fun x => acc x (rel s0)))).
      { rewrite map_length. destruct (length ss) eqn:El; cbn [reduce]; rewrite (decide_True (P := 0 = 0 /\ _)) by lia; done. }
      by rewrite Eq, loop_at, each_map.
    + split_and!; [done..|]. intros a nm Ha. apply R3. intros Hx. apply Ha. unfold copies_at. cbn. set_solver.
  - assert (Ef : exists fuel, length ss = S fuel) by (exists (length ss - 1); lia). destruct Ef as [fuel El]. assert (H4 : 4 <= length ss) by lia. destruct (half (length ss) H4) as (B1 & B2 & B3).
    destruct (lookup_lt_is_Some_2 ss 0) as [s Es]; [lia|]. destruct (lookup_lt_is_Some_2 ss (length ss / 2)) as [t Et]; [lia|].
    replace (reduce add acc (length ss) (map rel ss) (rel s0) (length ss) 0) with (reduce add acc (S fuel) (map rel ss) (rel s0) (length ss) 0) by (by rewrite <- El). rewrite reduce_eq by done. rewrite (at_map _ 0 s) by done. rewrite (at_map _ (length ss / 2) t) by done. rewrite decide_True by done.
    pose proof Hal as Hal0. apply list.Forall_cons in Hal as [A0 Hal]. pose proof Hsep as Hsep0. destruct (separate_app A [s0] ss Hsep) as (_ & Hsep1 & D0).
    assert (Hf : take (length ss) ss = ss) by (apply take_ge; lia).
    destruct (halves ss (length ss) h s t (reduce add acc fuel (map rel ss) (rel s) (length ss / 2) 1) (reduce add acc fuel (drop (length ss / 2) (map rel ss)) (rel t) (length ss - length ss / 2) 1)) as (h1 & E1 & R1);
      [lia|done|done|by rewrite Hf|by rewrite Hf|..].
    + intros h0 Ha0. apply reduce_sum; [done|lia|lia| |done]. rewrite <- Hf, take_split in Hsep1. by apply separate_app in Hsep1 as (? & _).
    + intros h0 Ha0. rewrite skipn_map. apply reduce_sum; [|rewrite drop_length; lia|lia| |done].
      * rewrite lookup_drop. by rewrite Nat.add_0_r.
      * rewrite <- Hf, take_split in Hsep1. by apply separate_app in Hsep1 as (_ & ? & _).
    + rewrite Hf in R1. destruct (separate_pick A (s0 :: ss) 1 0 s s0) as (N1 & N0 & D); [done..|].
      destruct (Hadd s s0 s0 h1 (or_intror eq_refl) N1 N0 D) as (h2 & E2 & R2).
      { eapply result_alloc; [exact R1|]. unfold copies_allocated in Hal. rewrite list.Forall_forall in Hal. apply Hal. by eapply elem_of_list_lookup_2. }
      { by eapply result_alloc. }
      exists h2. split.
      * cbn [run] in E1 |- *. destruct (run (reduce add acc fuel (map rel ss) (rel s) (length ss / 2) 1) h) as [h3|]; [|done]. cbn [mbind option_bind] in E1 |- *.
        destruct (run (reduce _ _ _ _ _ (length ss - length ss / 2) _) h3) as [h4|]; [|done]. cbn [mbind option_bind] in E1 |- *. rewrite run_seq, E1. exact E2.
      * pose proof R1 as (L1 & V1 & O1). destruct R2 as (L2 & V2 & O2). split_and!.
        -- intros a nm. by rewrite L2.
        -- intros p Hp. rewrite V2 by done. rewrite V1 by done. rewrite Rplus_comm. f_equal. eapply result_get; [exact R1|exact HA|done|]. intros a Ha Hx.
           apply (D0 (s0 a)); [apply in_copies; [by left|done]|done].
        -- intros a nm Ha. unfold copies_at in Ha. cbn in Ha. apply not_elem_of_app in Ha as [Ha1 Ha2]. rewrite O2 by done. by apply O1.
Qed.

(** footprints *)
Context (Hok : forall s1 s2 s3, ok (map s1 A ++ map s2 A ++ map s3 A) (add (rel s1) (rel s2) (rel s3))).
Context (Hok' : forall s s', ok (map s A ++ map s' A) (acc (rel s) (rel s'))).
Lemma in_take (ss : list (nat -> nat)) n i s : ss !! i = Some s -> i < n -> map s A ⊆ copies_at A (take n ss).
Proof using Type.
  clear HA Hadd Hacc Hok Hok'.
  intros E Hi x Hx. apply elem_of_list_fmap in Hx as (a & -> & Ha). apply in_copies; [|done]. apply elem_of_list_lookup. exists i. by rewrite take_lookup.
Qed.
Lemma reduce_ok fuel ss n d m : n <= length ss -> separate A (take n ss) -> ok (copies_at A (take n ss)) (reduce add acc fuel (map rel ss) m n (S d)).
Proof using Hok Hok'.
  clear HA Hadd Hacc.
  revert ss n d m. induction fuel as [|fuel IH]; intros ss n d m Hl Hsep.
  all: assert (Hsmall : n <= 3 -> forall f, ok (copies_at A (take n ss)) (reduce add acc f (map rel ss) m n (S d))).
  1,3: intros H3 f; assert (Hx : n = 0 \/ n = 1 \/ n = 2 \/ n = 3) by lia; destruct Hx as [-> |[-> |[-> | ->]]]; (destruct f; cbn [reduce]; (destruct (decide _); [lia|])); try done;
    destruct ss as [|s [|t ss]]; cbn in Hl; try lia; rewrite ?(at_map _ 0 s), ?(at_map _ 1 t) by done;
    (destruct ss as [|u ss]; [|rewrite ?(at_map _ 2 u) by done]); cbn in Hl; try lia;
    try apply ok_seq; first [eapply ok_mono; [|apply Hok] | eapply ok_mono; [|apply Hok']]; intros x Hx; rewrite ?elem_of_app in Hx; unfold copies_at; cbn; set_solver.
  - destruct (decide (n <= 3)); [by apply Hsmall|]. assert (E : exists k, n = S (S (S (S k)))) by (exists (n - 4); lia). destruct E as [k ->]. cbn [reduce]. destruct (decide _); [lia|done].
  - destruct (decide (n <= 3)); [by apply Hsmall|]. assert (H4 : 4 <= n) by lia. destruct (half n H4) as (B1 & B2 & B3).
    destruct (lookup_lt_is_Some_2 ss 0) as [s Es]; [lia|]. destruct (lookup_lt_is_Some_2 ss (n / 2)) as [t Et]; [lia|].
    rewrite reduce_eq by done. rewrite (at_map _ 0 s) by done. rewrite (at_map _ (n / 2) t) by done. destruct (decide (S d = 0)); [done|].
    pose proof Hsep as Hs2. rewrite take_split in Hs2. apply separate_app in Hs2 as (S1 & S2 & S12). split.
    + exists (copies_at A (take (n / 2) ss)), (copies_at A (take (n - n / 2) (drop (n / 2) ss))). split_and!; [rewrite (take_split ss n), copies_app; set_solver..|done| |].
      * apply IH; [lia|done].
      * rewrite skipn_map. apply IH; [rewrite drop_length; lia|done].
    + apply ok_seq; [|done]. eapply ok_mono; [|apply Hok]. intros x Hx. rewrite !elem_of_app in Hx. destruct Hx as [Hx|[Hx|Hx]]; revert x Hx; [eapply (in_take ss n 0)|eapply (in_take ss n (n / 2))|eapply (in_take ss n 0)]; try done; lia.
Qed.
Lemma each_ok ss s0 B : copies_at A (s0 :: ss) ⊆ B -> ok B (each ss (fun s => acc (rel s) (rel s0))).
Proof using Hok Hok'.
  clear HA Hadd Hacc.
  intros HB. assert (H : forall l, l ⊆ ss -> ok B (each l (fun s => acc (rel s) (rel s0)))).
  { induction l as [|s l IH]; intros Hl; cbn; [done|]. apply ok_seq; [|apply IH; set_solver]. eapply ok_mono; [|apply Hok']. intros x Hx. apply HB. rewrite elem_of_app in Hx.
    destruct Hx as [Hx|Hx]; apply elem_of_list_fmap in Hx as (a & -> & Ha); apply in_copies; set_solver. }
  by apply H.
Qed.
Lemma reduce_top_ok ss s0 : separate A ss -> ok (copies_at A (s0 :: ss)) (reduce add acc (length ss) (map rel ss) (rel s0) (length ss) 0).
Proof using Hok Hok'.
  clear HA Hadd Hacc.
  intros Hsep. destruct (decide (length ss <= 3)) as [H3|H3].
  - assert (Eq : reduce add acc (length ss) (map rel ss) (rel s0) (length ss) 0 = loop (length (map rel ss)) 0 (fun i => at_ (map rel ss) i (fun x => acc x (rel s0)))).
    { rewrite map_length. destruct (length ss) eqn:El; cbn [reduce]; rewrite (decide_True (P := 0 = 0 /\ _)) by lia; done. }
    rewrite Eq, loop_at, each_map. by apply each_ok.
  - assert (Ef : exists fuel, length ss = S fuel) by (exists (length ss - 1); lia). destruct Ef as [fuel El]. assert (H4 : 4 <= length ss) by lia. destruct (half (length ss) H4) as (B1 & B2 & B3).
    destruct (lookup_lt_is_Some_2 ss 0) as [s Es]; [lia|]. destruct (lookup_lt_is_Some_2 ss (length ss / 2)) as [t Et]; [lia|].
    replace (reduce add acc (length ss) (map rel ss) (rel s0) (length ss) 0) with (reduce add acc (S fuel) (map rel ss) (rel s0) (length ss) 0) by (by rewrite <- El). rewrite reduce_eq by done. rewrite (at_map _ 0 s) by done. rewrite (at_map _ (length ss / 2) t) by done. rewrite decide_True by done.
    assert (Hf : take (length ss) ss = ss) by (apply take_ge; lia). pose proof Hsep as Hs2. rewrite <- Hf, take_split in Hs2. apply separate_app in Hs2 as (S1 & S2 & S12).
    assert (M : forall l, l ⊆ s0 :: ss -> copies_at A l ⊆ copies_at A (s0 :: ss)) by (intros; by apply copies_sub).
    assert (Ms : forall s', s' ∈ s0 :: ss -> map s' A ⊆ copies_at A (s0 :: ss)).
    { intros s' Hs' x Hx. apply elem_of_list_fmap in Hx as (a & -> & Ha). by apply in_copies. }
    apply elem_of_list_lookup_2 in Es, Et. split.
    + exists (copies_at A (take (length ss / 2) ss)), (copies_at A (take (length ss - length ss / 2) (drop (length ss / 2) ss))). split_and!; [| |done| |].
      * apply M. intros x Hx. right. by eapply elem_of_take in Hx as (? & ?%elem_of_list_lookup_2 & _).
      * apply M. intros x Hx. right. apply elem_of_take in Hx as (k & Hx & _). rewrite lookup_drop in Hx. by eapply elem_of_list_lookup_2.
      * apply reduce_ok; [lia|done].
      * rewrite skipn_map. apply reduce_ok; [rewrite drop_length; lia|done].
    + apply ok_seq; (eapply ok_mono; [|apply Hok]); intros x Hx; rewrite !elem_of_app in Hx; destruct Hx as [Hx|[Hx|Hx]]; (eapply Ms; [|exact Hx]); first [by left | by right].
Qed.
End red.
