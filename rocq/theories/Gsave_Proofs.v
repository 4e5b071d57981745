From Verif Require Import Base BaseLemmas Neat_Model Neat_Spec Neat_Proofs Gsave_Model.
Open Scope nat_scope.

(** ** Counting *)

Lemma marked {A} (P : A -> Prop) `{!forall x, Decision (P x)} (l : list A) :
  exists L, NoDup L /\ (forall k, k ∈ L <-> exists c, l !! k = Some c /\ P c) /\ length L = length (filter P l).
Proof.
  induction l as [|c l IH] using rev_ind.
  - exists []. split; [apply NoDup_nil_2|]. split; [|done]. intros k. split; [by intros ?%elem_of_nil|]. intros (? & HH & _). done.
  - destruct IH as (L & HL & Hin & Hlen). rewrite list.filter_app, app_length. destruct (decide (P c)) as [Hc|Hc].
    + exists (L ++ [length l]). split; [|split].
      * apply list.NoDup_app. split; [done|]. split; [|apply NoDup_singleton]. intros k Hk ->%elem_of_list_singleton.
        apply Hin in Hk as (? & Hk & _). apply lookup_lt_Some in Hk. lia.
      * intros k. rewrite elem_of_app, elem_of_list_singleton, Hin. split.
        -- intros [(d & Hd & ?)| ->]; [exists d; split; [by apply lookup_app_l_Some|done]|].
           exists c. split; [|done]. by rewrite lookup_app_r, Nat.sub_diag by lia.
        -- intros (d & Hd & ?). apply lookup_app_Some in Hd as [?|[? Hd]]; [left; by exists d|].
           apply list_lookup_singleton_Some in Hd as [? ->]. right. lia.
      * rewrite app_length, Hlen, filter_cons_True by done. done.
    + exists L. split; [done|]. split.
      * intros k. rewrite Hin. split.
        -- intros (d & Hd & ?). exists d. split; [by apply lookup_app_l_Some|done].
        -- intros (d & Hd & ?). apply lookup_app_Some in Hd as [?|[? Hd]]; [by exists d|].
           apply list_lookup_singleton_Some in Hd as [? ->]. done.
      * rewrite filter_cons_False by done. cbn. lia.
Qed.

Lemma marked_length {A} (P : A -> Prop) `{!forall x, Decision (P x)} (l : list A) L :
  NoDup L -> (forall k, k ∈ L <-> exists c, l !! k = Some c /\ P c) -> length L = length (filter P l).
Proof.
  intros HL Hin. destruct (marked P l) as (L' & HL' & Hin' & <-). apply Permutation_length.
  apply NoDup_Permutation; [done..|]. intros k. by rewrite Hin, Hin'.
Qed.

Lemma omap_one {A B} (f : A -> option B) c (l : list A) :
  omap f (c :: l) = match f c with Some y => y :: omap f l | None => omap f l end.
Proof. done. Qed.

Lemma omap_order {A B} (f : A -> option B) (l : list A) : forall i j x y, i < j -> omap f l !! i = Some x -> omap f l !! j = Some y ->
  exists p q a b, p < q /\ l !! p = Some a /\ f a = Some x /\ l !! q = Some b /\ f b = Some y.
Proof.
  induction l as [|c l IH]; intros i j x y Hij Hi Hj; [done|]. rewrite omap_one in Hi, Hj. destruct (f c) as [z|] eqn:Ez.
  - destruct j as [|j]; [lia|]. destruct i as [|i].
    + cbn in Hi, Hj. simplify_eq. apply elem_of_list_lookup_2 in Hj. apply elem_of_list_omap in Hj as (b & Hb & Eb).
      apply elem_of_list_lookup_1 in Hb as (q & Hq). by exists 0, (S q), c, b; split; [lia|].
    + cbn in Hi, Hj. destruct (IH i j x y) as (p & q & a & b & ? & ? & ? & ? & ?); [lia|done|done|].
      exists (S p), (S q), a, b. by split; [lia|].
  - destruct (IH i j x y) as (p & q & a & b & ? & ? & ? & ? & ?); [lia|done|done|].
    exists (S p), (S q), a, b. by split; [lia|].
Qed.

Lemma omap_nodup {A B} (f : A -> option B) (l : list A) :
  (forall p q a b x, l !! p = Some a -> l !! q = Some b -> f a = Some x -> f b = Some x -> p = q) -> NoDup (omap f l).
Proof.
  intros H. apply NoDup_alt. intros i j x Hi Hj. destruct (decide (i = j)); [done|]. exfalso.
  destruct (decide (i < j)).
  - destruct (omap_order f l i j x x) as (p & q & a & b & ? & ? & ? & ? & ?); [done..|].
    assert (p = q) by eauto. lia.
  - destruct (omap_order f l j i x x) as (p & q & a & b & ? & ? & ? & ? & ?); [lia|done|done|].
    assert (p = q) by eauto. lia.
Qed.

Section gsave.
  Context {W : Type} (cv : Z -> Z) (cvw : W -> W).
  Hypothesis cv_inv : forall z, cv (cv z) = z.
  Hypothesis cvw_inv : forall w, cvw (cvw w) = w.
  Implicit Types (g : genome W) (ws : list (word W)) (ns : list rawnode).

  (** ** Reading what was written *)

  Lemma get_int_ok z ws : get_int cv (Int (cv z) :: ws) = Some (z, ws).
  Proof using cv_inv. cbn. by rewrite cv_inv. Qed.
  Lemma get_flt_ok w ws : get_flt cvw (Flt (cvw w) :: ws) = Some (w, ws).
  Proof using cvw_inv. cbn. by rewrite cvw_inv. Qed.

  (** the words of a node as it is read back *)
  Definition raw_words (r : rawnode) : list (word W) :=
    [Int (cv (r_in r)); Int (cv (r_out r)); Int (cv (r_inn r))].

  Lemma get_node_ok r ws : get_node cv (raw_words r ++ ws) = Some (r, ws).
  Proof using cv_inv.
    unfold get_node, raw_words. cbn [app]. rewrite get_int_ok. cbn. rewrite !cv_inv. by destruct r.
  Qed.

  Lemma get_nodes_ok rs ws : get_nodes cv (length rs) (mjoin (raw_words <$> rs) ++ ws) = Some (rs, ws).
  Proof using cv_inv.
    induction rs as [|r rs IH]; [done|]. cbn [length get_nodes fmap list_fmap].
    change (mjoin (raw_words r :: (raw_words <$> rs))) with (raw_words r ++ mjoin (raw_words <$> rs)).
    rewrite <- (assoc_L (++)), get_node_ok. cbn [mbind option_bind]. fold (fmap (M:=list) raw_words rs). by rewrite IH.
  Qed.

  (** a search that finds the only node with a number *)
  Definition good_find (find : Z -> list rawnode -> option nat) : Prop :=
    forall ns i n, NoDup (r_inn <$> ns) -> ns !! i = Some n -> find (r_inn n) ns = Some i.

  Lemma first_good : good_find first_with.
  Proof using.
    intros ns. induction ns as [|m ns IH]; intros i n Hnd Hi; [done|]. cbn [fmap list_fmap] in Hnd.
    apply list.NoDup_cons in Hnd as [Hm Hnd]. cbn [first_with]. destruct i as [|i].
    - cbn in Hi. simplify_eq. by rewrite decide_True.
    - cbn in Hi. rewrite decide_False, (IH i n) by done || (intros E; apply Hm; rewrite E; apply elem_of_list_fmap; exists n; split; [done|]; by eapply elem_of_list_lookup_2).
      done.
  Qed.

  Lemma last_none inn ns : inn ∉ r_inn <$> ns -> last_with inn ns = None.
  Proof using.
    induction ns as [|m ns IH]; [done|]. cbn [fmap list_fmap last_with]. intros H. apply not_elem_of_cons in H as [Hm H].
    rewrite IH by done. by rewrite decide_False.
  Qed.

  Lemma last_good : good_find last_with.
  Proof using.
    intros ns. induction ns as [|m ns IH]; intros i n Hnd Hi; [done|]. cbn [fmap list_fmap] in Hnd.
    apply list.NoDup_cons in Hnd as [Hm Hnd]. cbn [last_with]. destruct i as [|i].
    - cbn in Hi. simplify_eq. rewrite last_none by done. by rewrite decide_True.
    - cbn in Hi. by rewrite (IH i n).
  Qed.

  (** what the loop over the connections does to the table and to the list of connections *)
  Definition put g (s : list (option nat) * list (conn W)) (k : nat) : option (list (option nat) * list (conn W)) :=
    c ← rd (g_conns g) k; tab ← wr (fst s) (c_inn c - 1) (Some (length (snd s))); Some (tab, snd s ++ [c]).

  (** the nodes read have the numbers of the nodes of [g] *)
  Definition numbers_of g ns : Prop := r_inn <$> ns = Z.of_nat <$> node_numbers g.

  Lemma numbers_nodup g ns : numbers_of g ns -> NoDup (node_numbers g) -> NoDup (r_inn <$> ns).
  Proof using. unfold numbers_of. intros ->. apply NoDup_fmap_2. intros x y. apply Nat2Z.inj. Qed.

  Lemma numbers_lookup g ns i n : numbers_of g ns -> g_nodes g !! i = Some n ->
    exists r, ns !! i = Some r /\ r_inn r = Z.of_nat (n_inn n).
  Proof using.
    intros H Hi. assert (E : (r_inn <$> ns) !! i = Some (Z.of_nat (n_inn n))).
    { rewrite H. unfold node_numbers. by rewrite !list_lookup_fmap, Hi. }
    apply list_lookup_fmap_Some in E as (r & ? & ?). eauto.
  Qed.

  Lemma find_number find g ns i n : good_find find -> numbers_of g ns -> NoDup (node_numbers g) -> g_nodes g !! i = Some n ->
    find (Z.of_nat (n_inn n)) ns = Some i.
  Proof using.
    intros Hf Hn Hnd Hi. destruct (numbers_lookup g ns i n Hn Hi) as (r & Hr & <-). apply Hf; [by eapply numbers_nodup|done].
  Qed.

  Lemma get_conn_ok find g ns tab cs ws k kw ip op G : good_find find -> well_formed ip op G g -> numbers_of g ns ->
    conn_words cv cvw g k = Some kw ->
    get_conn cv cvw find ns (tab, cs, kw ++ ws) = '(tab, cs) ← put g (tab, cs) k; Some (tab, cs, ws).
  Proof using cv_inv cvw_inv.
    intros Hf Hw Hn E. unfold conn_words in E. apply bind_Some in E as (c & Ec & E).
    apply bind_Some in E as (s & Es & E). apply bind_Some in E as (d & Ed & E). simplify_eq. unfold get_conn. cbn [app].
    rewrite get_int_ok. cbn [mbind option_bind].
    destruct (wf_ends _ _ _ _ Hw _ _ Ec) as (p & _ & _ & Ep & _). unfold rd in Es, Ed.
    rewrite decide_True by lia. cbn [mbind option_bind]. rewrite Nat2Z.id. unfold put. rewrite Ec. cbn [mbind option_bind fst snd].
    destruct (wr tab (c_inn c - 1) (Some (length cs))) as [tab'|]; [|done]. cbn [mbind option_bind].
    rewrite !get_int_ok. cbn [mbind option_bind].
    rewrite (find_number find g ns _ _ Hf Hn (wf_numbers _ _ _ _ Hw) Es). cbn [mbind option_bind]. rewrite get_int_ok. cbn [mbind option_bind].
    rewrite (find_number find g ns _ _ Hf Hn (wf_numbers _ _ _ _ Hw) Ed). cbn [mbind option_bind]. rewrite get_flt_ok. cbn [mbind option_bind].
    rewrite get_int_ok. cbn [mbind option_bind].
    destruct c as [inn sr ds fl wt]. by destruct fl.
  Qed.

  Lemma get_conns_ok find g ns ip op G ws : good_find find -> well_formed ip op G g -> numbers_of g ns ->
    forall ks kws i0 tab cs, mapM (conn_words cv cvw g) ks = Some kws ->
    for_loop (length ks) i0 (fun _ => get_conn cv cvw find ns) (tab, cs, mjoin kws ++ ws) =
      '(tab, cs) ← each (put g) ks (tab, cs); Some (tab, cs, ws).
  Proof using cv_inv cvw_inv.
    intros Hf Hw Hn ks. induction ks as [|k ks IH]; intros kws i0 tab cs E.
    - apply mapM_Some in E. by inversion E; subst.
    - apply mapM_Some in E. inversion E as [|? kw ? kws' Ek E' ]; subst. apply mapM_Some in E'.
      cbn [length for_loop each]. change (mjoin (kw :: kws')) with (kw ++ mjoin kws'). rewrite <- (assoc_L (++)).
      rewrite (get_conn_ok find g ns tab cs (mjoin kws' ++ ws) k kw ip op G) by done.
      destruct (put g (tab, cs) k) as [[tab' cs']|]; [|done]. cbn [mbind option_bind]. by apply IH.
  Qed.

  (** ** The table *)

  (** the table holds, at the place of its number, every connection of the list, and nothing else *)
  Definition tabled (nc : nat) (tab : list (option nat)) (cs : list (conn W)) : Prop :=
    length tab = nc /\ forall p k, tab !! p = Some (Some k) <-> exists c, cs !! k = Some c /\ c_inn c = S p.

  Lemma put_all g nc ks cs : NoDup (c_inn <$> cs) -> Forall (fun c => 1 <= c_inn c <= nc) cs ->
    mapM (rd (g_conns g)) ks = Some cs ->
    exists tab, each (put g) ks (replicate nc None, []) = Some (tab, cs) /\ tabled nc tab cs.
  Proof using.
    revert cs. induction ks as [|k ks IH] using rev_ind; intros cs Hnd Hc E.
    - apply mapM_Some in E. inversion E; subst. exists (replicate nc None). split; [done|]. split; [by rewrite replicate_length|].
      intros p k. split; [|by intros (c & ? & _)]. intros [? _]%lookup_replicate. done.
    - apply mapM_Some in E. apply Forall2_app_inv_l in E as (cs' & l2 & E1 & E2 & ->).
      inversion E2 as [|? c ? ? Ek E3]; subst. inversion E3; subst. apply mapM_Some in E1.
      rewrite fmap_app in Hnd. apply list.NoDup_app in Hnd as (Hnd & Hno & _). apply Forall_app in Hc as [Hc Hc1].
      apply (proj1 (Forall_singleton (fun c : conn W => 1 <= c_inn c <= nc) c)) in Hc1.
      destruct (IH cs' Hnd Hc E1) as (tab & Et & Hl & Ht). rewrite each_app, Et. cbn [mbind option_bind each]. unfold put. rewrite Ek.
      cbn [mbind option_bind fst snd].
      rewrite wr_Some by lia. cbn [mbind option_bind]. eexists. split; [done|].
      split; [by rewrite insert_length|]. intros p k'. destruct (decide (p = c_inn c - 1)) as [->|Hp].
      + rewrite list_lookup_insert by lia. split.
        * intros [= <-]. exists c. split; [|lia]. by rewrite lookup_app_r, Nat.sub_diag by lia.
        * intros (d & Hd & Ed). apply lookup_app_Some in Hd as [Hd|[? Hd]].
          -- exfalso. apply (Hno (c_inn c)); [|by apply elem_of_list_singleton]. apply elem_of_list_fmap. exists d.
             split; [lia|]. by eapply elem_of_list_lookup_2.
          -- apply list_lookup_singleton_Some in Hd as [? ->]. repeat f_equal. lia.
      + rewrite list_lookup_insert_ne by done. rewrite Ht. split.
        * intros (d & Hd & ?). exists d. split; [by apply lookup_app_l_Some|done].
        * intros (d & Hd & ?). apply lookup_app_Some in Hd as [Hd|[? Hd]]; [by exists d|].
          apply list_lookup_singleton_Some in Hd as [? ->]. lia.
  Qed.

  (** ** Linking *)

  (** the connections of the table that satisfy [f] *)
  Definition chosen (f : conn W -> nat) (i : nat) (cs : list (conn W)) (tab : list (option nat)) : list nat :=
    omap (fun e => k ← e; c ← cs !! k; if decide (f c = i) then Some k else None) tab.

  Lemma chosen_elem f i cs tab nc k : tabled nc tab cs -> Forall (fun c => 1 <= c_inn c <= nc) cs ->
    k ∈ chosen f i cs tab <-> exists c, cs !! k = Some c /\ f c = i.
  Proof using.
    intros [Hl Ht] Hc. unfold chosen. rewrite elem_of_list_omap. split.
    - intros ([k'|] & Hx & E); cbn in E; [|done]. destruct (cs !! k') as [c|] eqn:Ec; [|done]. cbn in E. case_decide; [|done]. simplify_eq. eauto.
    - intros (c & Ec & E). exists (Some k). split.
      + assert (H : 1 <= c_inn c <= nc) by (apply (Forall_lookup_1 _ _ _ _ Hc Ec)).
        apply elem_of_list_lookup_2 with (i := c_inn c - 1). apply Ht. exists c. split; [done|]. lia.
      + cbn. rewrite Ec. cbn. by rewrite decide_True.
  Qed.

  Lemma chosen_nodup f i cs tab nc : tabled nc tab cs -> NoDup (chosen f i cs tab).
  Proof using.
    intros [Hl Ht]. apply omap_nodup. intros p q a b x Hp Hq Ea Eb.
    assert (H : forall e, (k ← e; c ← cs !! k; if decide (f c = i) then Some k else None) = Some x -> e = Some x).
    { intros [k|] E; cbn in E; [|done]. destruct (cs !! k); [|done]. cbn in E. case_decide; by simplify_eq. }
    apply H in Ea, Eb. subst. apply Ht in Hp as (c & Hc & E1'), Hq as (c' & Hc' & E2'). simplify_eq. lia.
  Qed.

  Lemma chosen_length f i cs tab nc : tabled nc tab cs -> Forall (fun c => 1 <= c_inn c <= nc) cs ->
    length (chosen f i cs tab) = length (filter (fun c => f c = i) cs).
  Proof using.
    intros Ht Hc. apply marked_length; [by eapply chosen_nodup|]. intros k. by eapply chosen_elem.
  Qed.

  Lemma chosen_app f i cs t1 t2 : chosen f i cs (t1 ++ t2) = chosen f i cs t1 ++ chosen f i cs t2.
  Proof using. unfold chosen. apply omap_app. Qed.

  (** one step of the loop of a node, for node number i *)
  Lemma link_step_ok ns cs i me acc e : NoDup (r_inn <$> ns) -> ns !! i = Some me ->
    (forall k, e = Some k -> exists c s d, cs !! k = Some c /\ ns !! c_src c = Some s /\ ns !! c_dst c = Some d) ->
    link_step ns cs me acc e =
      (let o := fst acc ++ chosen c_src i cs [e] in let n := snd acc ++ chosen c_dst i cs [e] in
       if decide ((chosen c_src i cs [e] = [] \/ Z.of_nat (length o) <= r_out me)%Z /\
                  (chosen c_dst i cs [e] = [] \/ Z.of_nat (length n) <= r_in me)%Z) then Some (o, n) else None).
  Proof using.
    intros Hnd Hi He. destruct e as [k|].
    2:{ cbn. rewrite !app_nil_r. destruct acc. rewrite decide_True; [done|]. by split; left. }
    destruct (He k eq_refl) as (c & s & d & Ec & Es & Ed). unfold link_step, rd. rewrite Ec. cbn [mbind option_bind]. rewrite Es. cbn [mbind option_bind].
    rewrite Ed. cbn [mbind option_bind]. unfold chosen. cbn. rewrite Ec. cbn.
    assert (Hiff : forall j r, ns !! j = Some r -> r_inn r = r_inn me <-> j = i).
    { intros j r Hj. split; [|intros ->; by simplify_eq]. intros E. eapply (NoDup_lookup (r_inn <$> ns)); [done|..]; rewrite list_lookup_fmap.
      - by rewrite Hj.
      - rewrite Hi. cbn. by rewrite E. }
    destruct acc as [o n]. cbn [fst snd].
    destruct (decide (c_src c = i)) as [Hs|Hs].
    - rewrite (decide_True (P := r_inn s = r_inn me)) by (by apply (Hiff (c_src c))).
      destruct (decide (Z.of_nat (length o) < r_out me)%Z) as [Ho|Ho].
      + cbn [mbind option_bind fst snd]. destruct (decide (c_dst c = i)) as [Hd|Hd].
        * rewrite (decide_True (P := r_inn d = r_inn me)) by (by apply (Hiff (c_dst c))).
          rewrite !app_length. cbn [length].
          destruct (decide (Z.of_nat (length n) < r_in me)%Z).
          -- rewrite decide_True; [done|]. split; right; lia.
          -- rewrite decide_False; [done|]. intros [_ [?|?]]; [done|lia].
        * rewrite (decide_False (P := r_inn d = r_inn me)) by (by rewrite (Hiff (c_dst c))).
          rewrite !app_length. cbn [length]. rewrite app_nil_r. rewrite decide_True; [done|]. split; [right; lia|by left].
      + cbn [mbind option_bind]. rewrite decide_False; [done|]. rewrite app_length. cbn [length]. intros [[?|?] _]; [done|lia].
    - rewrite (decide_False (P := r_inn s = r_inn me)) by (by rewrite (Hiff (c_src c))).
      cbn [mbind option_bind fst snd]. rewrite app_nil_r. destruct (decide (c_dst c = i)) as [Hd|Hd].
      + rewrite (decide_True (P := r_inn d = r_inn me)) by (by apply (Hiff (c_dst c))).
        rewrite !app_length. cbn [length]. destruct (decide (Z.of_nat (length n) < r_in me)%Z).
        -- rewrite decide_True; [done|]. split; [by left|right; lia].
        -- rewrite decide_False; [done|]. intros [_ [?|?]]; [done|lia].
      + rewrite (decide_False (P := r_inn d = r_inn me)) by (by rewrite (Hiff (c_dst c))).
        rewrite app_nil_r, decide_True; [done|]. by split; left.
  Qed.

  (** the lists of a node: what they hold when the loop does not leave them *)
  Lemma link_all ns cs i me : NoDup (r_inn <$> ns) -> ns !! i = Some me -> forall tab acc,
    (forall k, Some k ∈ tab -> exists c s d, cs !! k = Some c /\ ns !! c_src c = Some s /\ ns !! c_dst c = Some d) ->
    match each (link_step ns cs me) tab acc with
    | Some acc' => acc' = (fst acc ++ chosen c_src i cs tab, snd acc ++ chosen c_dst i cs tab)
    | None => (r_out me < Z.of_nat (length (fst acc ++ chosen c_src i cs tab)))%Z \/
              (r_in me < Z.of_nat (length (snd acc ++ chosen c_dst i cs tab)))%Z
    end.
  Proof using.
    intros Hnd Hi tab. induction tab as [|e tab IH]; intros acc He.
    - cbn. rewrite !app_nil_r. by destruct acc.
    - cbn [each]. rewrite (link_step_ok ns cs i me acc e Hnd Hi).
      2:{ intros k ->. apply He. by left. }
      change (e :: tab) with ([e] ++ tab). rewrite !chosen_app. cbn zeta.
      case_decide as Hd; cbn [mbind option_bind].
      + specialize (IH (fst acc ++ chosen c_src i cs [e], snd acc ++ chosen c_dst i cs [e])). cbn [fst snd] in IH.
        rewrite !(assoc_L (++)). apply IH. intros k Hk. apply He. by right.
      + rewrite !app_length in *. destruct (decide (chosen c_src i cs [e] = [] \/ (Z.of_nat (length (fst acc) + length (chosen c_src i cs [e])) <= r_out me)%Z)) as [H|H].
        * right. assert (~ (chosen c_dst i cs [e] = [] \/ (Z.of_nat (length (snd acc) + length (chosen c_dst i cs [e])) <= r_in me)%Z)) by tauto. lia.
        * left. lia.
  Qed.

  Lemma link_node_ok ns cs i me tab : NoDup (r_inn <$> ns) -> ns !! i = Some me ->
    (forall k, Some k ∈ tab -> exists c s d, cs !! k = Some c /\ ns !! c_src c = Some s /\ ns !! c_dst c = Some d) ->
    link_node ns cs tab me =
      if decide (Z.of_nat (length (chosen c_src i cs tab)) = r_out me /\ Z.of_nat (length (chosen c_dst i cs tab)) = r_in me)
      then Some (mkNode (Z.to_nat (r_inn me)) (chosen c_dst i cs tab) (chosen c_src i cs tab) None) else None.
  Proof using.
    intros Hnd Hi He. unfold link_node. pose proof (link_all ns cs i me Hnd Hi tab ([], []) He) as H. cbn [fst snd app] in H.
    destruct (each (link_step ns cs me) tab ([], [])) as [acc|].
    - subst. done.
    - cbn [mbind option_bind]. rewrite decide_False; [done|]. lia.
  Qed.
End gsave.
