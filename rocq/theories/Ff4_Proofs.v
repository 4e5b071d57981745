From Verif Require Import Base BaseLemmas Neat_Model Neat_Spec Mcts_Model Ff_Model Ff_Proofs Ff2_Proofs Ff3_Proofs.
Open Scope nat_scope.

Lemma each_app' {A S} (f : S -> A -> option S) l l' s : each f (l ++ l') s = (t ← each f l s; each f l' t).
Proof. revert s. induction l as [|x l IH]; intros s; [done|]. cbn. destruct (f s x) as [t|]; [apply IH|done]. Qed.
Lemma all_lists_concat {S} (f : S -> ffl -> option S) ls s : all_lists f ls s = each f (mjoin ls) s.
Proof.
  unfold all_lists. revert s. induction ls as [|l ls IH]; intros s; [done|]. cbn [each mjoin list_join]. change (mjoin (l :: ls)) with (l ++ mjoin ls).
  rewrite each_app'. destruct (each f l s) as [t|]; [apply IH|done].
Qed.
Lemma each_ind {A S} (f : S -> A -> option S) (P : list A -> S -> Prop) l s :
  P [] s -> (forall l1 x l2 s, l = l1 ++ x :: l2 -> P l1 s -> exists s', f s x = Some s' /\ P (l1 ++ [x]) s') -> exists s', each f l s = Some s' /\ P l s'.
Proof.
  intros Hs H. assert (Q : forall l2 l1 s, l = l1 ++ l2 -> P l1 s -> exists s', each f l2 s = Some s' /\ P l s').
  { induction l2 as [|x l2 IH]; intros l1 t E Ht.
    - rewrite app_nil_r in E. subst l1. by exists t.
    - destruct (H l1 x l2 t E Ht) as (t' & E' & Ht'). cbn [each]. rewrite E'. cbn [mbind option_bind]. apply (IH (l1 ++ [x])); [by rewrite <- (assoc_L (++))|done]. }
  by apply (Q l [] s).
Qed.

Section ff.
Context {F : Type} (N : nat) (g : genome F) (Hg : okg N g).
Notation n := (length (g_nodes g)). Notation nc := (length (g_conns g)).
Implicit Types s : ev (F:=F).

(** * The lists *)
Definition isl (l : ffl) : Prop := exists i p, i < g_output g /\ bpath g (m0 N) (i + g_input g) p /\ l = pre 1 p.
Definition the_lists fuel : list (list ffl) := (fun i => pre 1 <$> paths fuel g (m0 N) (i + g_input g)) <$> seq 0 (g_output g).

Lemma falses_m0 : falses (m0 N) = N.
Proof. unfold falses, m0. clear. induction N as [|k IH]; [done|]. cbn [replicate]. rewrite filter_cons_True by done. cbn [length]. by rewrite IH. Qed.
Lemma reconstruct_ok fuel : N < fuel -> reconstruct fuel g N = Some (the_lists fuel).
Proof using Hg.
  intros Hf. unfold reconstruct, the_lists.
  pose proof (for_loop_inv (fun i (st : list bool * list (list ffl)) => st = (m0 N, (fun i => pre 1 <$> paths fuel g (m0 N) (i + g_input g)) <$> seq 0 i))
    (fun i st => r ← recon fuel g (fst st) (i + g_input g) 1 [] 0; let '(a, l, _, _) := r in Some (a, snd st ++ [l])) (g_output g) 0 (replicate N false, [])) as H.
  destruct H as (st & -> & ->).
  - done.
  - intros i st [_ Hi] ->. destruct (recon_ok N g Hg fuel (m0 N) (i + g_input g) 1 []) as (_ & gj & E); [lia|apply replicate_length|apply (out_lt N g Hg); lia|by rewrite falses_m0|].
    cbn [fst snd length] in *. rewrite E. cbn [mbind option_bind]. eexists. split; [done|]. rewrite seq_S, fmap_app. done.
  - done.
Qed.
Lemma lists_isl fuel l : N < fuel -> l ∈ mjoin (the_lists fuel) <-> isl l.
Proof using Hg.
  intros Hf. rewrite elem_of_list_join. unfold the_lists, isl. split.
  - intros (row & Hl & Hr). apply elem_of_list_fmap in Hr as (i & -> & Hi). apply elem_of_seq in Hi. apply elem_of_list_fmap in Hl as (p & -> & Hp).
    apply (paths_iff N g Hg) in Hp; [|apply replicate_length|apply (out_lt N g Hg); lia|by rewrite falses_m0]. exists i, p. split; [lia|]. done.
  - intros (i & p & Hi & Hp & ->). exists (pre 1 <$> paths fuel g (m0 N) (i + g_input g)). split.
    + apply elem_of_list_fmap. exists p. split; [done|]. apply (paths_iff N g Hg); [apply replicate_length|apply (out_lt N g Hg); lia|by rewrite falses_m0|done].
    + apply elem_of_list_fmap. exists i. split; [done|]. apply elem_of_seq. lia.
Qed.

Lemma size_pre p : f_size (pre 1 p) = length p.1.1.
Proof. unfold f_size, pre. cbn. by rewrite fmap_length. Qed.
Lemma node_pre p i : node_at (pre 1 p) i = p.1.1 !! i.
Proof. unfold node_at, pre, rd. cbn. rewrite list_lookup_fmap. by destruct (p.1.1 !! i). Qed.
Lemma conn_pre p i : conn_at (pre 1 p) i = p.1.2 !! i.
Proof. unfold conn_at, pre, rd. cbn. rewrite list_lookup_fmap. by destruct (p.1.2 !! i). Qed.

(** what is known of each list *)
Lemma isl_facts l : isl l ->
  1 <= f_size l /\ (forall i, i < f_size l -> exists x, node_at l i = Some x /\ x < n) /\
  (forall i, i < f_size l - 1 -> exists k, conn_at l i = Some k /\ k < nc /\ used N g k) /\
  (f_flag l = 1%Z -> 2 <= f_size l) /\
  exists v, node_at l (f_size l - 1) = Some v /\ v < n /\
    (f_flag l = 0%Z /\ v < g_input g \/ f_flag l = 1%Z /\ ~ v < g_input g /\ live g v <> [] \/ f_flag l = (-1)%Z /\ ~ v < g_input g /\ live g v = []).
Proof using Hg.
  intros (i & p & Hi & Hp & ->). rewrite size_pre. pose proof (out_lt N g Hg i Hi) as Ho.
  destruct (bpath_nodes N g Hg _ _ _ Hp Ho) as (El & Hn & Hc & H0). split; [lia|]. split; [|split; [|split]].
  - intros j Hj. rewrite node_pre. destruct (lookup_lt_is_Some_2 _ _ Hj) as [x Hx]. exists x. split; [done|]. by apply (Forall_lookup_1 _ _ _ _ Hn Hx).
  - intros j Hj. rewrite conn_pre. destruct (lookup_lt_is_Some_2 p.1.2 j ltac:(lia)) as [k Hk]. exists k. split; [done|].
    split; [by apply (Forall_lookup_1 _ _ _ _ Hc Hk)|]. exists i, p. split; [done|]. split; [done|]. by eapply elem_of_list_lookup_2.
  - intros Hf. apply (bpath_len g _ _ _ Hp); [done|]. apply m0_un.
  - destruct (bpath_last N g Hg _ _ _ Hp Ho) as (v & Ev & Hv & Hcase). exists v. rewrite node_pre. split; [|split; [done|]].
    + rewrite list.last_lookup in Ev. rewrite <- Ev. f_equal. lia.
    + cbn. destruct Hcase as [?|[(? & ? & [Hm|?])|?]]; [tauto| |tauto|tauto]. by apply m0_un in Hm.
Qed.
Lemma isl_ends l v : isl l -> node_at l (f_size l - 1) = Some v -> f_flag l <> (-1)%Z -> ends N g v.
Proof.
  intros (i & p & Hi & Hp & ->) Hv Hf. exists i, p. split; [done|]. split; [done|]. rewrite size_pre, node_pre in Hv. split; [|done].
  rewrite list.last_lookup, <- Hv. f_equal. lia.
Qed.
Lemma ends_isl v : ends N g v -> exists l, isl l /\ node_at l (f_size l - 1) = Some v /\ f_flag l <> (-1)%Z.
Proof.
  intros (i & p & Hi & Hp & Hv & Hf). exists (pre 1 p). split; [by exists i, p|]. rewrite size_pre, node_pre. split; [|done].
  rewrite list.last_lookup in Hv. rewrite <- Hv. f_equal. lia.
Qed.

(** * The ends *)
Lemma put_nf_ok' i x s : ok g s -> i < n -> exists s', put_nf i x s = Some s' /\ ok g s' /\ e_cf s' = e_cf s /\ e_val s' = e_val s /\ e_sto s' = e_sto s.
Proof. intros (H1 & H2 & H3 & H4) Hi. unfold put_nf. rewrite wr_Some by lia. cbn. eexists. split; [done|]. unfold ok. cbn. by rewrite insert_length. Qed.

Definition marked_by (ls : list ffl) (v : nat) : Prop := exists l, l ∈ ls /\ node_at l (f_size l - 1) = Some v /\ f_flag l <> (-1)%Z.
Lemma mark_ok ls s0 : (forall l, l ∈ ls -> isl l) -> ok g s0 ->
  exists array s storing, each (mark_ends g) ls (replicate N false, s0, false) = Some (array, s, storing) /\ length array = N /\ ok g s /\
    e_cf s = e_cf s0 /\ e_val s = e_val s0 /\ e_sto s = e_sto s0 /\
    (forall v, v < n -> array !! nmb g v = Some true <-> marked_by ls v) /\ (storing = true <-> exists l, l ∈ ls /\ f_flag l = 1%Z).
Proof using Hg.
  intros Hls Hok0.
  destruct (each_ind (mark_ends g) (fun done st => let '(array, s, storing) := st in length array = N /\ ok g s /\
    e_cf s = e_cf s0 /\ e_val s = e_val s0 /\ e_sto s = e_sto s0 /\
    (forall v, v < n -> array !! nmb g v = Some true <-> marked_by done v) /\ (storing = true <-> exists l, l ∈ done /\ f_flag l = 1%Z)) ls (replicate N false, s0, false))
    as ([[array s] storing] & E & H).
  - split; [apply replicate_length|]. do 4 (split; [done|]). split.
    + intros v _. split; [intros H; by apply (m0_un N) in H|]. intros (l & Hl & _). by apply elem_of_nil in Hl.
    + split; [done|]. intros (l & Hl & _). by apply elem_of_nil in Hl.
  - intros l1 l l2 [[a s] st] E (Ha & Hok & Ec & Ev & Es & Hm & Hst). unfold mark_ends.
    assert (Hl : isl l) by (apply Hls; rewrite E; apply elem_of_app; right; left).
    destruct (isl_facts l Hl) as (_ & _ & _ & _ & v & Hv & Hvn & Hcase). rewrite Hv. cbn [mbind option_bind].
    destruct (num_lt N g Hg v Hvn) as (-> & Hnum & _). cbn [mbind option_bind]. rewrite wr_Some by lia. cbn [mbind option_bind].
    assert (Hm' : forall w, w < n -> <[nmb g v := negb (f_flag l =? -1)%Z]> a !! nmb g w = Some true <-> marked_by (l1 ++ [l]) w).
    { intros w Hw. destruct (decide (w = v)) as [->|Hne].
      - rewrite list_lookup_insert by lia. split.
        + intros [= H]. exists l. split; [apply elem_of_app; right; left|]. split; [done|]. intros E'. rewrite E' in H. done.
        + intros (l' & Hl' & Hv' & Hf'). f_equal. destruct (f_flag l =? -1)%Z eqn:Ef; [|done]. apply Z.eqb_eq in Ef. exfalso.
          assert (Hisl' : isl l'). { apply Hls. rewrite E. apply elem_of_app in Hl' as [?|Hl']; [by apply elem_of_app; left|]. apply elem_of_app; right. apply elem_of_list_singleton in Hl' as ->. left. }
          pose proof (isl_ends l' v Hisl' Hv' Hf') as He. apply (ends_live N g Hg) in He as (_ & He).
          destruct Hcase as [[? ?]|[(? & ? & ?)|(_ & Q1 & Q2)]]; [congruence..|]. destruct He; done.
      - rewrite list_lookup_insert_ne by (intros E'; apply Hne; symmetry; by apply (num_inj N g Hg)). rewrite (Hm w Hw). unfold marked_by. split.
        + intros (l' & ? & ?). exists l'. split; [apply elem_of_app; by left|done].
        + intros (l' & Hl' & Q1 & Q2). exists l'. split; [|done]. apply elem_of_app in Hl' as [?|Hl']; [done|]. apply elem_of_list_singleton in Hl' as ->. congruence. }
    assert (Hst' : forall b : bool, b = bool_decide (f_flag l = 1%Z) -> st || b = true <-> exists l', l' ∈ l1 ++ [l] /\ f_flag l' = 1%Z).
    { intros b ->. rewrite orb_true_iff, bool_decide_eq_true, Hst. split.
      - intros [(l' & ? & ?)|?]; [exists l'; split; [apply elem_of_app; by left|done]|exists l; split; [apply elem_of_app; right; left|done]].
      - intros (l' & Hl' & Hf). apply elem_of_app in Hl' as [?|Hl']; [left; eauto|]. apply elem_of_list_singleton in Hl' as ->. by right. }
    destruct (f_flag l =? 1)%Z eqn:E1'.
    + apply Z.eqb_eq in E1'. eexists. split; [done|]. split; [by rewrite insert_length|]. do 4 (split; [done|]). split; [done|].
      rewrite <- (Hst' true) by (by rewrite bool_decide_true). rewrite orb_true_r. done.
    + apply Z.eqb_neq in E1'. specialize (Hst' false ltac:(by rewrite bool_decide_false)). rewrite orb_false_r in Hst'.
      destruct (f_flag l =? -1)%Z eqn:E2.
      * destruct (put_nf_ok' v true s Hok Hvn) as (s' & -> & Hok' & Ec' & Ev' & Es'). cbn [mbind option_bind]. eexists. split; [done|].
        split; [by rewrite insert_length|]. split; [done|]. do 3 (split; [congruence|]). done.
      * eexists. split; [done|]. split; [by rewrite insert_length|]. do 4 (split; [done|]). done.
  - rewrite E. exists array, s, storing. split; [done|]. exact H.
Qed.

(** * The connections *)
Definition passes (ls : list ffl) (k : nat) : Prop := exists l i, l ∈ ls /\ i < f_size l - 1 /\ conn_at l i = Some k.
Lemma put_cf_ok' k z s : ok g s -> k < nc -> exists s', put_cf k z s = Some s' /\ ok g s' /\ e_cf s' = <[k:=z]> (e_cf s) /\ e_val s' = e_val s /\ e_nf s' = e_nf s.
Proof. intros (H1 & H2 & H3 & H4) Hi. unfold put_cf. rewrite wr_Some by lia. cbn. eexists. split; [done|]. unfold ok. cbn. by rewrite insert_length. Qed.
Lemma activate_ok m l s : isl l -> m <= f_size l - 1 -> ok g s ->
  exists s', activate m s l = Some s' /\ ok g s' /\ e_val s' = e_val s /\ e_nf s' = e_nf s /\
    forall k, ((exists i, i < m /\ conn_at l i = Some k) -> e_cf s' !! k = Some (-1)%Z) /\ (~ (exists i, i < m /\ conn_at l i = Some k) -> e_cf s' !! k = e_cf s !! k).
Proof using Hg.
  intros Hl Hm Hok. unfold activate.
  destruct (for_loop_inv (fun j s' => ok g s' /\ e_val s' = e_val s /\ e_nf s' = e_nf s /\ forall k, ((exists i, i < j /\ conn_at l i = Some k) -> e_cf s' !! k = Some (-1)%Z) /\
     (~ (exists i, i < j /\ conn_at l i = Some k) -> e_cf s' !! k = e_cf s !! k)) (fun i s => c ← conn_at l i; put_cf c (-1) s) m 0 s) as (s' & -> & H).
  - split; [done|]. split; [done|]. split; [done|]. intros k. split; [intros (i & ? & _); lia|done].
  - intros i q Hi (Hq & Ev & En & HQ). destruct (isl_facts l Hl) as (_ & _ & Hc & _). destruct (Hc i ltac:(lia)) as (k & Ek & Hk & _).
    rewrite Ek. cbn [mbind option_bind].
    destruct (put_cf_ok' k (-1)%Z q Hq Hk) as (q' & -> & Hq' & Ec & Ev' & En'). exists q'. split; [done|]. split; [done|]. split; [congruence|]. split; [congruence|].
    intros k'. rewrite Ec. destruct (HQ k') as [Q1 Q2]. destruct (decide (k = k')) as [<-|Hne].
    + rewrite list_lookup_insert by (destruct Hq as (_ & _ & _ & ->); done). split; [done|]. intros H. exfalso. apply H. exists i. split; [lia|done].
    + rewrite list_lookup_insert_ne by done. split.
      * intros (j & Hj & Ej). apply Q1. exists j. split; [|done]. assert (j <> i) by congruence. lia.
      * intros H. apply Q2. intros (j & Hj & Ej). apply H. exists j. split; [lia|done].
  - by exists s'.
Qed.
Lemma activate_all ls s : (forall l, l ∈ ls -> isl l) -> ok g s ->
  exists s', each (fun s l => activate (f_size l - 1) s l) ls s = Some s' /\ ok g s' /\ e_val s' = e_val s /\ e_nf s' = e_nf s /\
    forall k, (passes ls k -> e_cf s' !! k = Some (-1)%Z) /\ (~ passes ls k -> e_cf s' !! k = e_cf s !! k).
Proof using Hg.
  intros Hls Hok.
  destruct (each_ind (fun s l => activate (f_size l - 1) s l) (fun done s' => ok g s' /\ e_val s' = e_val s /\ e_nf s' = e_nf s /\
    forall k, (passes done k -> e_cf s' !! k = Some (-1)%Z) /\ (~ passes done k -> e_cf s' !! k = e_cf s !! k)) ls s) as (s' & E & H).
  - split; [done|]. split; [done|]. split; [done|]. intros k. split; [|done]. intros (l & i & Hl & _). by apply elem_of_nil in Hl.
  - intros l1 l l2 q E (Hq & Ev & En & HQ). assert (Hl : isl l) by (apply Hls; rewrite E; apply elem_of_app; right; left).
    destruct (activate_ok (f_size l - 1) l q Hl ltac:(lia) Hq) as (q' & E' & Hq' & Ev' & En' & HQ'). exists q'. split; [done|].
    split; [done|]. split; [congruence|]. split; [congruence|]. intros k. destruct (HQ k) as [Q1 Q2]. destruct (HQ' k) as [Q3 Q4].
    assert (Hdec : Decision (exists i, i < f_size l - 1 /\ conn_at l i = Some k)).
    { destruct (decide (Exists (fun i => conn_at l i = Some k) (seq 0 (f_size l - 1)))) as [D|D]; rewrite list.Exists_exists in D.
      - left. destruct D as (i & Hi & Ei). apply elem_of_seq in Hi. exists i. split; [lia|done].
      - right. intros (i & Hi & Ei). apply D. exists i. split; [apply elem_of_seq; lia|done]. }
    split.
    + intros (l' & i & Hl' & Hi & Ei). destruct Hdec as [D|D]; [by apply Q3|]. rewrite Q4 by done. apply Q1. exists l', i.
      apply elem_of_app in Hl' as [?|Hl']; [done|]. apply elem_of_list_singleton in Hl' as ->. exfalso. apply D. by exists i.
    + intros H. rewrite Q4, Q2; [done| |].
      * intros (l' & i & Hl' & Hi). apply H. exists l', i. split; [apply elem_of_app; by left|done].
      * intros (i & Hi & Ei). apply H. exists l, i. split; [apply elem_of_app; right; left|done].
  - by exists s'.
Qed.

(** * The whole evaluation *)
Notation fine s := (ok g s /\ sub (used N g) s).
Lemma same_fine s s' : fine s -> ok g s' -> e_cf s' = e_cf s -> fine s'.
Proof. intros [_ H] Ho E. split; [done|]. intros k. rewrite E. apply H. Qed.
Lemma le_fine s s' : fine s -> good g s s' -> fine s'.
Proof. intros [_ H] [Ho Hle]. split; [done|]. by eapply sub_le. Qed.
Lemma put_val_fine i x s : fine s -> i < n -> exists s', put_val i x s = Some s' /\ fine s'.
Proof. intros Hs Hi. destruct (put_val_ok g i x s ltac:(tauto) Hi) as (s' & -> & Ho & E). exists s'. split; [done|]. by eapply same_fine. Qed.
Lemma put_sto_fine i x s : fine s -> i < n -> exists s', put_sto i x s = Some s' /\ fine s'.
Proof. intros Hs Hi. destruct (put_sto_ok g i x s ltac:(tauto) Hi) as (s' & -> & Ho & E). exists s'. split; [done|]. by eapply same_fine. Qed.
Lemma put_nf_fine i x s : fine s -> i < n -> exists s', put_nf i x s = Some s' /\ fine s'.
Proof. intros Hs Hi. destruct (put_nf_ok g i x s ltac:(tauto) Hi) as (s' & -> & Ho & E). exists s'. split; [done|]. by eapply same_fine. Qed.
Lemma put_cf_fine k z s : fine s -> k < nc -> (z = (-1)%Z -> used N g k) -> exists s', put_cf k z s = Some s' /\ fine s'.
Proof.
  intros [Ho Hs] Hk Hz. destruct (put_cf_ok' k z s Ho Hk) as (s' & -> & Ho' & E & _). exists s'. split; [done|]. split; [done|]. intros k'. rewrite E.
  destruct (decide (k = k')) as [<-|Hne]; [|rewrite list_lookup_insert_ne by done; apply Hs].
  rewrite list_lookup_insert by (destruct Ho as (_ & _ & _ & ->); done). intros [= ->]. by apply Hz.
Qed.
Lemma activate_fine m l s : isl l -> m <= f_size l - 1 -> fine s -> exists s', activate m s l = Some s' /\ fine s'.
Proof using Hg.
  intros Hl Hm Hs. unfold activate.
  destruct (for_loop_inv (fun _ s' => fine s') (fun i s => c ← conn_at l i; put_cf c (-1) s) m 0 s) as (s' & -> & H); [done| |by exists s'].
  intros i q Hi Hq. destruct (isl_facts l Hl) as (_ & _ & Hc & _). destruct (Hc i ltac:(lia)) as (k & -> & Hk & Hu). cbn [mbind option_bind]. by apply put_cf_fine.
Qed.

Lemma set_inputs_fine inputs s : g_input g <= length inputs -> fine s -> exists s', set_inputs g inputs s = Some s' /\ fine s'.
Proof using Hg.
  intros Hi Hs. unfold set_inputs. match goal with |- context [for_loop _ _ ?f _] => destruct (for_loop_inv (fun _ s' => fine s') f (g_input g) 0 s) as (s' & -> & H) end; [done| |by exists s'].
  intros i q Hi' Hq. pose proof (ok_size _ _ Hg). destruct (rd_Some inputs i ltac:(lia)) as [x ->]. cbn [mbind option_bind]. apply put_val_fine; [done|lia].
Qed.

Lemma row_isl (lists : list (list ffl)) i row j l : (forall l, l ∈ mjoin lists -> isl l) -> lists !! i = Some row -> row !! j = Some l -> isl l.
Proof. intros H Hi Hj. apply H. apply elem_of_list_join. exists row. split; by eapply elem_of_list_lookup_2. Qed.
Lemma node_num l i : isl l -> i < f_size l -> exists x, node_at l i = Some x /\ x < n /\ number g x = Some (nmb g x) /\ nmb g x < N.
Proof using Hg.
  intros Hl Hi. destruct (isl_facts l Hl) as (_ & Hn & _). destruct (Hn i Hi) as (x & Ex & Hx). destruct (num_lt N g Hg x Hx) as (? & ? & _). by exists x.
Qed.
Lemma occurs_ok lists i j a b : (forall l, l ∈ mjoin lists -> isl l) -> exists o, occurs g lists i j a b = Some o.
Proof using Hg.
  intros Hls. unfold occurs.
  match goal with |- context [for_loop (length lists) 0 ?f false] => destruct (for_loop_inv (fun _ _ => True) f (length lists) 0 false) as (o & -> & _) end; [done| |by exists o].
  intros k1 f Hk1 _. destruct (lookup_lt_is_Some_2 lists k1 ltac:(lia)) as [row Er]. rewrite (Er : rd _ _ = Some _). cbn [mbind option_bind].
  match goal with |- context [for_loop (length row) 0 ?f ?z] => destruct (for_loop_inv (fun _ _ => True) f (length row) 0 z) as (o & -> & _) end; [done| |by exists o].
  intros k2 f2 Hk2 _. destruct (lookup_lt_is_Some_2 row k2 ltac:(lia)) as [l El]. assert (Hl : isl l) by (by eapply row_isl).
  rewrite (El : rd _ _ = Some _). cbn [mbind option_bind]. destruct (decide (k1 = i /\ k2 = j)); [by exists f2|].
  assert (Ho : exists o, occurs_in g a b l = Some o); [|by destruct Ho as [o ->]; eexists].
  unfold occurs_in. match goal with |- context [for_loop ?c 0 ?f ?z] => destruct (for_loop_inv (fun _ _ => True) f c 0 z) as (o & -> & _) end; [done| |by exists o].
  intros k3 f3 Hk3 _. destruct (node_num l k3 Hl ltac:(lia)) as (x & -> & _ & Ex & _). destruct (node_num l (k3 + 1) Hl ltac:(lia)) as (y & -> & _ & Ey & _).
  cbn [mbind option_bind]. rewrite Ex, Ey. cbn. eauto.
Qed.
Lemma cut_fine lists s : (forall l, l ∈ mjoin lists -> isl l) -> fine s -> exists s', cut_loops g lists s = Some s' /\ fine s'.
Proof using Hg.
  intros Hls Hs. unfold cut_loops.
  match goal with |- context [for_loop (length lists) 0 ?f s] => destruct (for_loop_inv (fun _ s => fine s) f (length lists) 0 s) as (o & -> & ?) end; [done| |by exists o].
  intros i q Hi Hq. destruct (lookup_lt_is_Some_2 lists i ltac:(lia)) as [row Er]. rewrite (Er : rd _ _ = Some _). cbn [mbind option_bind].
  match goal with |- context [for_loop (length row) 0 ?f q] => destruct (for_loop_inv (fun _ s => fine s) f (length row) 0 q) as (o & -> & ?) end; [done| |by exists o].
  intros j r Hj Hr. destruct (lookup_lt_is_Some_2 row j ltac:(lia)) as [l El]. assert (Hl : isl l) by (by eapply row_isl).
  rewrite (El : rd _ _ = Some _). cbn [mbind option_bind]. destruct (f_flag l =? 1)%Z eqn:Ef; [|by exists r]. apply Z.eqb_eq in Ef.
  destruct (isl_facts l Hl) as (_ & _ & Hc & H2 & _). specialize (H2 Ef).
  destruct (node_num l (f_size l - 2) Hl ltac:(lia)) as (x & -> & _ & Ex & _). destruct (node_num l (f_size l - 1) Hl ltac:(lia)) as (y & -> & _ & Ey & _).
  cbn [mbind option_bind]. rewrite Ex, Ey. cbn [mbind option_bind]. destruct (occurs_ok lists i j (nmb g x) (nmb g y) Hls) as [o ->]. cbn [mbind option_bind].
  destruct o; [by exists r|]. destruct (Hc (f_size l - 2) ltac:(lia)) as (k & -> & Hk & _). cbn [mbind option_bind]. by apply put_cf_fine.
Qed.

Section run.
Context (O : num F) (sig : F -> F).
Context (array : list bool) (Harr : length array = N) (Hmark : forall v, v < n -> ends N g v -> array !! nmb g v = Some true).
Context (fuel : nat) (Hfuel : nc * (n + 2) + n + 1 < fuel).

Lemma compute_fine s head : fine s -> head < n -> exists s' b, compute O sig fuel g array head None s = Some (s', b) /\ fine s'.
Proof using Hg Harr Hmark Hfuel.
  intros Hs Hh. destruct (compute_total O sig N g Hg array Harr (used N g)) with (fuel := fuel) (s := s) (head := head) (via := @None (nat * nat)) (t := @nil nat)
    as (s' & b & E & G); try done; try tauto.
  - apply (used_live N g Hg).
  - intros v l Hw Hnd Hne. destruct (cycle_has_end N g Hg v l Hw Hnd Hne) as (x & Hx & He). exists x. split; [done|]. apply Hmark; [|done].
    pose proof (walk_nodes N g Hg _ _ _ _ Hw) as HF. by apply (proj1 (list.Forall_forall _ _) HF) in Hx as [_ ?].
  - unfold meas. assert (pend s <= nc). { destruct Hs as [(_ & _ & _ & E) _]. rewrite <- E. unfold pend. apply filter_length. } nia.
  - exists s', b. split; [done|]. by eapply le_fine.
Qed.
Lemma run_inputs_fine s : fine s -> exists s', run_inputs O sig fuel g array s = Some s' /\ fine s'.
Proof using Hg Harr Hmark Hfuel.
  intros Hs. unfold run_inputs. match goal with |- context [for_loop _ _ ?f _] => destruct (for_loop_inv (fun _ s' => fine s') f (g_input g) 0 s) as (s' & -> & H) end; [done| |by exists s'].
  intros i q Hi Hq. pose proof (ok_size _ _ Hg). destruct (num_lt N g Hg i ltac:(lia)) as (-> & Hn & _). cbn [mbind option_bind].
  destruct (rd_Some array (nmb g i) ltac:(lia)) as [b ->]. cbn [mbind option_bind]. destruct b; [|by exists q].
  destruct (compute_fine q i Hq ltac:(lia)) as (s' & b & -> & Hs'). cbn. by exists s'.
Qed.
Lemma run_ends_fine lists s : (forall l, l ∈ mjoin lists -> isl l) -> fine s -> exists s', run_ends O sig fuel g array lists s = Some s' /\ fine s'.
Proof using Hg Harr Hmark Hfuel.
  intros Hls Hs. unfold run_ends. rewrite all_lists_concat. apply each_inv; [done|]. intros l q Hl Hq. destruct (isl_facts l (Hls l Hl)) as (_ & _ & _ & _ & v & Hv & Hvn & _).
  destruct (f_flag l =? -1)%Z; [|by exists q]. rewrite Hv. cbn [mbind option_bind]. destruct (compute_fine q v Hq Hvn) as (s' & b & -> & Hs'). cbn. by exists s'.
Qed.
Lemma second_fine inputs lists s : (forall l, l ∈ mjoin lists -> isl l) -> g_input g <= length inputs -> fine s ->
  exists s', second_pass O sig fuel g N inputs array lists s = Some s' /\ fine s'.
Proof using Hg Harr Hmark Hfuel.
  intros Hls Hinp Hs. unfold second_pass. rewrite !all_lists_concat.
  match goal with |- context [each ?f (mjoin lists) (replicate N false)] => destruct (each_inv f (fun a => length a = N) (mjoin lists) (replicate N false)) as (a2 & -> & Ha2) end.
  { apply replicate_length. }
  { intros l a Hl Ha. destruct (isl_facts l (Hls l Hl)) as (_ & _ & _ & H2 & _). destruct (f_flag l =? 1)%Z eqn:Ef; [|by exists a]. apply Z.eqb_eq in Ef. specialize (H2 Ef).
    destruct (node_num l (f_size l - 2) (Hls l Hl) ltac:(lia)) as (x & -> & _ & Ex & Hx). cbn [mbind option_bind]. rewrite Ex. cbn [mbind option_bind].
    rewrite wr_Some by lia. eexists. split; [done|]. by rewrite insert_length. }
  cbn [mbind option_bind].
  match goal with |- context [for_loop n 0 ?f s] => destruct (for_loop_inv (fun _ s => fine s) f n 0 s) as (s1 & -> & Hs1) end; [done| |].
  { intros i q Hi Hq. destruct (put_nf_fine i false q Hq ltac:(lia)) as (q1 & -> & Hq1). cbn [mbind option_bind].
    destruct (num_lt N g Hg i ltac:(lia)) as (-> & Hn & _). cbn [mbind option_bind]. destruct (rd_Some array (nmb g i) ltac:(lia)) as [b ->]. cbn [mbind option_bind].
    assert (H : exists q2, (if b then if decide (g_input g <= i) then x ← rd (e_val q1) i; put_sto i x q1 else Some q1 else Some q1) = Some q2 /\ fine q2).
    { destruct b; [|by exists q1]. destruct (decide (g_input g <= i)); [|by exists q1]. destruct (rd_Some (e_val q1) i) as [x ->]; [destruct Hq1 as [[-> _] _]; lia|].
      cbn. apply put_sto_fine; [done|lia]. }
    destruct H as (q2 & -> & Hq2). cbn [mbind option_bind]. apply put_val_fine; [done|lia]. }
  cbn [mbind option_bind].
  rewrite all_lists_concat.
  match goal with |- context [each ?f (mjoin lists) (s1, ?z)] =>
    destruct (each_inv f (fun st => fine st.1 /\ length st.2 = N /\ Forall (fun r => length r = N) st.2) (mjoin lists) (s1, z)) as ([s2 a3] & -> & Hs2 & _) end.
  { split; [done|]. split; [apply replicate_length|]. apply Forall_replicate. apply replicate_length. }
  { intros l [q a3] Hl (Hq & Ha3 & Hrows). cbn in Hq, Ha3, Hrows. destruct (isl_facts l (Hls l Hl)) as (_ & _ & Hc & H2 & _).
    destruct (f_flag l =? 1)%Z eqn:Ef; [|by eexists]. apply Z.eqb_eq in Ef. specialize (H2 Ef).
    destruct (node_num l (f_size l - 2) (Hls l Hl) ltac:(lia)) as (x & -> & Hx & Ex & Hxn). destruct (node_num l (f_size l - 1) (Hls l Hl) ltac:(lia)) as (y & -> & Hy & Ey & Hyn).
    cbn [mbind option_bind]. rewrite Ex, Ey. cbn [mbind option_bind]. destruct (lookup_lt_is_Some_2 a3 (nmb g x) ltac:(lia)) as [row Erow].
    pose proof (Forall_lookup_1 _ _ _ _ Hrows Erow) as Hrow. cbn in Hrow. rewrite (Erow : rd _ _ = Some _). cbn [mbind option_bind].
    destruct (rd_Some row (nmb g y) ltac:(lia)) as [b ->]. cbn [mbind option_bind]. destruct b; [by eexists|].
    destruct (rd_Some (e_sto q) y) as [v ->]; [destruct Hq as [(_ & -> & _) _]; done|]. cbn [mbind option_bind].
    destruct (Hc (f_size l - 2) ltac:(lia)) as (k & -> & Hk & _). cbn [mbind option_bind]. destruct (rd_Some _ _ Hk) as [c ->]. cbn [mbind option_bind].
    match goal with |- context [put_val x ?z q] => destruct (put_val_fine x z q Hq Hx) as (q1 & -> & Hq1) end. cbn [mbind option_bind].
    destruct (put_nf_fine x true q1 Hq1 Hx) as (q2 & -> & Hq2). cbn [mbind option_bind]. rewrite wr_Some by lia. cbn [mbind option_bind].
    rewrite wr_Some by lia. cbn [mbind option_bind]. eexists. split; [done|]. cbn. split; [done|]. split; [by rewrite insert_length|].
    apply Forall_insert; [done|]. by rewrite insert_length. }
  cbn [mbind option_bind fst]. cbn [fst] in Hs2.
  rewrite all_lists_concat.
  match goal with |- context [each ?f (mjoin lists) s2] => destruct (each_inv f (fun s => fine s) (mjoin lists) s2) as (s3 & -> & Hs3) end; [done| |].
  { intros l q Hl Hq. destruct (f_flag l =? 1)%Z eqn:Ef; [apply activate_fine; [auto|lia|done]|].
    destruct (isl_facts l (Hls l Hl)) as (_ & _ & _ & _ & v & -> & Hv & _). cbn [mbind option_bind]. destruct (put_nf_fine v true q Hq Hv) as (q1 & -> & Hq1). cbn [mbind option_bind].
    match goal with |- context [for_loop (f_size l) 0 ?f false] => destruct (for_loop_inv (fun _ _ => True) f (f_size l) 0 false) as (h & -> & _) end; [done| |].
    { intros k f Hk _. destruct (node_num l k (Hls l Hl) ltac:(lia)) as (x & -> & Hx & Ex & Hxn). cbn [mbind option_bind]. rewrite Ex. cbn [mbind option_bind].
      destruct (rd_Some a2 (nmb g x) ltac:(lia)) as [b ->]. cbn. by eexists. }
    cbn [mbind option_bind]. destruct h; [by exists q1|]. apply activate_fine; [auto|lia|done]. }
  cbn [mbind option_bind]. destruct (set_inputs_fine inputs s3 Hinp Hs3) as (s4 & -> & Hs4). cbn [mbind option_bind]. rewrite all_lists_concat.
  match goal with |- context [each ?f (mjoin lists) s4] => destruct (each_inv f (fun s => fine s) (mjoin lists) s4) as (s5 & -> & Hs5) end; [done| |].
  { intros l q Hl Hq. destruct (isl_facts l (Hls l Hl)) as (_ & _ & _ & H2 & _). destruct (f_flag l =? 1)%Z eqn:Ef; [|by exists q]. apply Z.eqb_eq in Ef. specialize (H2 Ef).
    destruct (node_num l (f_size l - 2) (Hls l Hl) ltac:(lia)) as (x & -> & Hx & _). cbn [mbind option_bind]. destruct (compute_fine q x Hq Hx) as (s' & b & -> & Hs'). cbn. by exists s'. }
  cbn [mbind option_bind]. destruct (run_inputs_fine s5 Hs5) as (s6 & -> & Hs6). cbn [mbind option_bind]. by apply run_ends_fine.
Qed.
End run.
End ff.
