From Verif Require Import Base BaseLemmas Shuffle_Model Shuffle_Spec Shuffle_Proofs Neat_Model Neat_Spec Neat_Proofs Neat2_Proofs.
Open Scope nat_scope.

Section proofs.
  Context {W : Type} (one : W).
  Implicit Types g : genome W.

  (** ** Candidate ends of a new connection *)

  Definition src_ok ip op g i : Prop :=
    exists n, g_nodes g !! i = Some n /\ ~ is_output ip op (n_inn n).
  Definition dst_ok ip g i : Prop :=
    exists n, g_nodes g !! i = Some n /\ ~ is_input ip (n_inn n).

  Lemma room {l : list nat} x lo n tot :
    NoDup (l ++ [x]) -> (forall y, y ∈ l ++ [x] -> y < tot /\ ~ (lo <= y < lo + n)) -> lo + n <= tot ->
    length l < tot - n.
  Proof.
    intros Hnd Hl Hlo.
    assert (Hsub : (l ++ [x]) ++ seq lo n ⊆+ seq 0 tot).
    { apply NoDup_submseteq.
      - apply NoDup_app. split; [done|]. split; [|apply NoDup_seq].
        intros y Hy Hy'. apply elem_of_seq in Hy'. destruct (Hl y Hy). lia.
      - intros y Hy. apply elem_of_app in Hy as [Hy|Hy].
        + apply elem_of_seq. destruct (Hl y Hy). lia.
        + apply elem_of_seq in Hy. apply elem_of_seq. lia. }
    apply submseteq_length in Hsub. rewrite !app_length, !seq_length in Hsub. cbn in Hsub. lia.
  Qed.

  Lemma candidates_ok ip op G g :
    well_formed ip op G g ->
    exists t1 t2, candidates g = Some (t1, t2) /\
      (forall i, i ∈ t1 <-> src_ok ip op g i) /\ (forall i, i ∈ t2 <-> dst_ok ip g i).
  Proof.
    intros Hwf. unfold candidates. set (tot := length (g_nodes g)).
    assert (Htot : ip + op <= tot).
    { destruct (decide (ip + op = 0)) as [?|Hne]; [lia|].
      destruct (wf_base _ _ _ _ Hwf (ip + op - 1) ltac:(lia)) as (n & Hn & _).
      apply lookup_lt_Some in Hn. unfold tot. lia. }
    rewrite (wf_input _ _ _ _ Hwf), (wf_output _ _ _ _ Hwf).
    destruct (each_some (fun '(t1, t2) i =>
      n ← rd (g_nodes g) i;
      let s1 := if decide (length t1 < tot - op) then Some (t1 ++ [i]) else None in
      let s2 := if decide (length t2 < tot - ip) then Some (t2 ++ [i]) else None in
      if decide (n_inn n <= ip) then t1' ← s1; Some (t1', t2)
      else if decide (n_inn n <= ip + op) then t2' ← s2; Some (t1, t2')
      else t1' ← s1; t2' ← s2; Some (t1', t2'))
      (fun pre (s : list nat * list nat) => NoDup (fst s) /\ NoDup (snd s) /\
         (forall i, i ∈ fst s <-> i ∈ pre /\ src_ok ip op g i) /\
         (forall i, i ∈ snd s <-> i ∈ pre /\ dst_ok ip g i)) (seq 0 tot) ([], [])) as (s & E & I).
    - cbn. split; [apply NoDup_nil_2|]. split; [apply NoDup_nil_2|].
      split; intros i; (split; [intros H; by apply elem_of_nil in H|intros [H _]; by apply elem_of_nil in H]).
    - intros pre i post [t1 t2] El (D1 & D2 & M1 & M2). cbn in D1, D2, M1, M2.
      assert (Hi : i < tot).
      { assert (Hin : i ∈ seq 0 tot) by (rewrite El; apply elem_of_app; right; left).
        apply elem_of_seq in Hin. lia. }
      assert (Hnew : i ∉ pre).
      { intros Hin. assert (Hnd : NoDup (seq 0 tot)) by apply NoDup_seq. rewrite El in Hnd.
        apply NoDup_app in Hnd as (_ & Hd & _). apply (Hd i Hin). left. }
      assert (Hpre : forall y, y ∈ pre -> y < tot).
      { intros y Hy. assert (Hin : y ∈ seq 0 tot) by (rewrite El; apply elem_of_app; by left).
        apply elem_of_seq in Hin. lia. }
      destruct (lookup_lt_is_Some_2 _ _ Hi) as [n Hn]. rewrite rd_lookup, Hn. cbn [mbind option_bind].
      cbv zeta.
      assert (Hr : 1 <= n_inn n).
      { destruct (wf_range _ _ _ _ Hwf (n_inn n)); [|done]. unfold node_numbers. apply elem_of_list_fmap.
        exists n. split; [done|]. by eapply elem_of_list_lookup_2. }
      assert (Hroles : forall y m, g_nodes g !! y = Some m -> y < ip + op -> n_inn m = y + 1).
      { intros y m Hm Hy. destruct (wf_base _ _ _ _ Hwf y Hy) as (m' & Hm' & ?). congruence. }
      assert (Hsrc : src_ok ip op g i <-> ~ is_output ip op (n_inn n)).
      { split; [intros (n' & Hn' & ?); congruence|intros; by exists n]. }
      assert (Hdst : dst_ok ip g i <-> ~ is_input ip (n_inn n)).
      { split; [intros (n' & Hn' & ?); congruence|intros; by exists n]. }
      assert (D1' : NoDup (t1 ++ [i])).
      { apply NoDup_app. split; [done|]. split; [|apply NoDup_singleton]. intros y Hy Hy'.
        apply elem_of_list_singleton in Hy'. subst. apply M1 in Hy as [? _]. done. }
      assert (D2' : NoDup (t2 ++ [i])).
      { apply NoDup_app. split; [done|]. split; [|apply NoDup_singleton]. intros y Hy Hy'.
        apply elem_of_list_singleton in Hy'. subst. apply M2 in Hy as [? _]. done. }
      assert (R1 : src_ok ip op g i -> length t1 < tot - op).
      { intros Hs. apply (room i ip op tot D1'); [|lia]. intros y Hy.
        assert (Hy2 : y < tot /\ src_ok ip op g y).
        { apply elem_of_app in Hy as [Hy|Hy].
          - apply M1 in Hy as [? ?]. split; [by apply Hpre|done].
          - apply elem_of_list_singleton in Hy. by subst. }
        destruct Hy2 as [? (m & Hm & Ho)]. split; [done|]. intros Hr'. apply Ho.
        rewrite (Hroles y m Hm) by lia. unfold is_output. lia. }
      assert (R2 : dst_ok ip g i -> length t2 < tot - ip).
      { intros Hs. apply (room i 0 ip tot D2'); [|lia]. intros y Hy.
        assert (Hy2 : y < tot /\ dst_ok ip g y).
        { apply elem_of_app in Hy as [Hy|Hy].
          - apply M2 in Hy as [? ?]. split; [by apply Hpre|done].
          - apply elem_of_list_singleton in Hy. by subst. }
        destruct Hy2 as [? (m & Hm & Ho)]. split; [done|]. intros Hr'. apply Ho.
        rewrite (Hroles y m Hm) by lia. unfold is_input. lia. }
      assert (P1 : src_ok ip op g i -> forall y, y ∈ t1 ++ [i] <-> y ∈ pre ++ [i] /\ src_ok ip op g y).
      { intros Hs y. rewrite !elem_of_app, !elem_of_list_singleton, M1. naive_solver. }
      assert (P1' : ~ src_ok ip op g i -> forall y, y ∈ t1 <-> y ∈ pre ++ [i] /\ src_ok ip op g y).
      { intros Hs y. rewrite !elem_of_app, !elem_of_list_singleton, M1. naive_solver. }
      assert (P2 : dst_ok ip g i -> forall y, y ∈ t2 ++ [i] <-> y ∈ pre ++ [i] /\ dst_ok ip g y).
      { intros Hs y. rewrite !elem_of_app, !elem_of_list_singleton, M2. naive_solver. }
      assert (P2' : ~ dst_ok ip g i -> forall y, y ∈ t2 <-> y ∈ pre ++ [i] /\ dst_ok ip g y).
      { intros Hs y. rewrite !elem_of_app, !elem_of_list_singleton, M2. naive_solver. }
      unfold is_output, is_input in Hsrc, Hdst.
      destruct (decide (n_inn n <= ip)) as [H1|H1].
      + assert (S1 : src_ok ip op g i) by (apply Hsrc; lia).
        assert (S2 : ~ dst_ok ip g i) by (rewrite Hdst; lia).
        rewrite decide_True by auto. cbn. eexists. split; [done|]. cbn. auto.
      + destruct (decide (n_inn n <= ip + op)) as [H2|H2].
        * assert (S1 : ~ src_ok ip op g i) by (rewrite Hsrc; lia).
          assert (S2 : dst_ok ip g i) by (rewrite Hdst; lia).
          rewrite (decide_True (P := length t2 < tot - ip)) by auto. cbn. eexists. split; [done|]. cbn. auto.
        * assert (S1 : src_ok ip op g i) by (apply Hsrc; lia).
          assert (S2 : dst_ok ip g i) by (rewrite Hdst; lia).
          rewrite (decide_True (P := length t1 < tot - op)) by auto.
          rewrite (decide_True (P := length t2 < tot - ip)) by auto. cbn. eexists. split; [done|]. cbn. auto.
    - destruct s as [t1 t2]. exists t1, t2. split; [exact E|]. destruct I as (_ & _ & M1 & M2). cbn in *.
      assert (Hin : forall i n, g_nodes g !! i = Some n -> i ∈ seq 0 tot).
      { intros i n Hn. apply elem_of_seq. apply lookup_lt_Some in Hn. unfold tot. lia. }
      split; intros i.
      + rewrite M1. split; [by intros [_ ?]|]. intros (n & Hn & ?). split; [by eapply Hin|by exists n].
      + rewrite M2. split; [by intros [_ ?]|]. intros (n & Hn & ?). split; [by eapply Hin|by exists n].
  Qed.

  (** ** The search for a free pair *)

  Definition joins g (c : conn W) a b : Prop :=
    exists x y, g_nodes g !! c_src c = Some x /\ g_nodes g !! c_dst c = Some y /\ n_inn x = a /\ n_inn y = b.

  Lemma between_spec ip op G g a b ks :
    well_formed ip op G g -> (forall k, k ∈ ks -> k < length (g_conns g)) ->
    exists r, between g a b ks = Some r /\
      match r with
      | Some k => k ∈ ks /\ exists c, g_conns g !! k = Some c /\ joins g c a b
      | None => forall k c, k ∈ ks -> g_conns g !! k = Some c -> ~ joins g c a b
      end.
  Proof.
    intros Hwf. induction ks as [|k ks IH]; intros Hks.
    - exists None. split; [done|]. intros k c H. by apply elem_of_nil in H.
    - destruct (lookup_lt_is_Some_2 _ _ (Hks k ltac:(left))) as [c Hc]. cbn. rewrite rd_lookup, Hc. cbn.
      destruct (wf_ends _ _ _ _ Hwf _ _ Hc) as (p & x & y & _ & Hx & Hy & _).
      rewrite (rd_lookup (g_nodes g) (c_src c)), Hx. cbn. rewrite (rd_lookup (g_nodes g) (c_dst c)), Hy. cbn.
      destruct (decide (n_inn x = a /\ n_inn y = b)) as [[Ha Hb]|Hn].
      + exists (Some k). split; [done|]. split; [left|]. exists c. split; [done|]. by exists x, y.
      + destruct IH as (r & Er & Hr). { intros k' Hk'. apply Hks. by right. }
        exists r. split; [done|]. destruct r as [k'|].
        * destruct Hr as [? ?]. split; [by right|done].
        * intros k' c' Hk' Hc' Hj. apply elem_of_cons in Hk' as [->|Hk'].
          -- rewrite Hc in Hc'. simplify_eq. destruct Hj as (x' & y' & ? & ? & ? & ?). simplify_eq. tauto.
          -- by eapply Hr.
  Qed.

  Definition found_ok g (ks is_ js : list nat) (r : found) : Prop :=
    match r with
    | Disabled k => exists c, g_conns g !! k = Some c /\ c_flag c = false
    | Free i j => i ∈ is_ /\ j ∈ js /\ exists ni nj, g_nodes g !! i = Some ni /\ g_nodes g !! j = Some nj /\
                    forall k c, k ∈ ks -> g_conns g !! k = Some c -> ~ joins g c (n_inn ni) (n_inn nj)
    | Full => forall i j ni nj, i ∈ is_ -> j ∈ js -> g_nodes g !! i = Some ni -> g_nodes g !! j = Some nj ->
                exists k c, g_conns g !! k = Some c /\ joins g c (n_inn ni) (n_inn nj) /\ c_flag c = true
    end.

  Lemma try_destinations_spec ip op G g ks i js :
    well_formed ip op G g -> (forall k, k ∈ ks -> k < length (g_conns g)) ->
    i < length (g_nodes g) -> (forall j, j ∈ js -> j < length (g_nodes g)) ->
    exists r, try_destinations g ks i js = Some r /\ found_ok g ks [i] js r.
  Proof.
    intros Hwf Hks Hi. destruct (lookup_lt_is_Some_2 _ _ Hi) as [ni Hni].
    induction js as [|j js IH]; intros Hjs.
    - exists Full. split; [done|]. intros ???? _ H. by apply elem_of_nil in H.
    - destruct (lookup_lt_is_Some_2 _ _ (Hjs j ltac:(left))) as [nj Hnj].
      cbn. rewrite (rd_lookup (g_nodes g) i), Hni. cbn. rewrite (rd_lookup (g_nodes g) j), Hnj. cbn.
      destruct (between_spec ip op G g (n_inn ni) (n_inn nj) ks Hwf Hks) as (r & Er & Hr).
      rewrite Er. cbn. destruct r as [k|].
      + destruct Hr as (Hk & c & Hc & Hj). rewrite (rd_lookup (g_conns g) k), Hc. cbn. destruct (c_flag c) eqn:Ef.
        * destruct IH as (r & Er' & Hr'). { intros j' Hj'. apply Hjs. by right. }
          exists r. split; [done|]. destruct r as [k'|i' j'|]; cbn in *.
          -- done.
          -- destruct Hr' as (? & ? & ?). split; [done|]. split; [by right|done].
          -- intros i' j' ni' nj' Hi' Hj' Hni' Hnj'. apply elem_of_cons in Hj' as [->|Hj'].
             ++ apply elem_of_list_singleton in Hi'. subst. simplify_eq. by exists k, c.
             ++ by apply (Hr' i' j').
        * exists (Disabled k). split; [done|]. by exists c.
      + exists (Free i j). split; [done|]. split; [left|]. split; [left|]. by exists ni, nj.
  Qed.

  Lemma try_sources_spec ip op G g ks is_ js :
    well_formed ip op G g -> (forall k, k ∈ ks -> k < length (g_conns g)) ->
    (forall i, i ∈ is_ -> i < length (g_nodes g)) -> (forall j, j ∈ js -> j < length (g_nodes g)) ->
    exists r, try_sources g ks is_ js = Some r /\ found_ok g ks is_ js r.
  Proof.
    intros Hwf Hks His Hjs. induction is_ as [|i is_ IH].
    - exists Full. split; [done|]. intros ???? H. by apply elem_of_nil in H.
    - destruct (try_destinations_spec ip op G g ks i js Hwf Hks (His i ltac:(left)) Hjs) as (r & Er & Hr).
      cbn. rewrite Er. cbn. destruct r as [k|i' j'|].
      + by exists (Disabled k).
      + exists (Free i' j'). split; [done|]. cbn in *. destruct Hr as (Hi' & ? & ?).
        apply elem_of_list_singleton in Hi'. subst. split; [left|done].
      + destruct IH as (r' & Er' & Hr'). { intros i' Hi'. apply His. by right. }
        exists r'. split; [done|]. destruct r' as [k'|i' j'|]; cbn in *.
        * done.
        * destruct Hr' as (? & ? & ?). split; [by right|done].
        * intros i' j' ni' nj' Hi' Hj' Hni' Hnj'. apply elem_of_cons in Hi' as [->|Hi'].
          -- apply (Hr i j'); try done. left.
          -- by apply (Hr' i' j').
  Qed.

  Lemma position_of_spec a b l :
    match position_of a b l with
    | Some z => l !! z = Some (a, b)
    | None => (a, b) ∉ l
    end.
  Proof.
    induction l as [|x l IH]; cbn.
    - apply not_elem_of_nil.
    - destruct (decide (x = (a, b))) as [->|Hx]; [done|].
      destruct (position_of a b l) as [z|]; cbn; [done|].
      apply not_elem_of_cons. split; [congruence|done].
  Qed.

  Lemma consistent_add ip op G a b :
    consistent ip op G -> 1 <= a <= gl_nodes G -> 1 <= b <= gl_nodes G ->
    ~ is_output ip op a -> ~ is_input ip b -> (a, b) ∉ gl_mconns G ->
    consistent ip op (mkGlobals (gl_nodes G) (gl_conns G + 1) (gl_dict G ++ [0]) (gl_mnodes G)
                        (gl_mconns G ++ [(a, b)])).
  Proof.
    intros [A B C D E F K L] Ha Hb Ho Hi Hn.
    assert (Hd : forall p s, (gl_dict G ++ [0]) !! p = Some s -> s <> 0 -> gl_dict G !! p = Some s).
    { intros p s Hp Hs. apply lookup_app_Some in Hp as [Hp|[_ Hp]]; [done|].
      apply list_lookup_singleton_Some in Hp as [_ <-]. done. }
    constructor; cbn; try done.
    - rewrite app_length, A. done.
    - rewrite app_length, B. done.
    - apply NoDup_app. split; [done|]. split; [|apply NoDup_singleton].
      intros x Hx Hx'. apply elem_of_list_singleton in Hx'. by subst.
    - intros p x y Hp. apply lookup_app_Some in Hp as [Hp|[_ Hp]]; [by apply (F p)|].
      apply list_lookup_singleton_Some in Hp as [_ Hp]. simplify_eq. done.
    - intros p s Hp Hs. apply Hd in Hp; [|done]. destruct (K p s Hp Hs) as (? & x & y & e1 & e2 & K1 & K2 & K3 & K4).
      split; [done|]. exists x, y, e1, e2. repeat split; try done; by apply lookup_app_l_Some.
    - intros p p' s Hp Hp' Hs. apply (L p p' s); auto.
  Qed.

  (** the effect of adding a connection on what the genome says *)
  Lemma flag_ok ip op G g k c v :
    well_formed ip op G g -> g_conns g !! k = Some c -> c_flag c = negb v ->
    exists g' num a b w, upd_conn g k (set_flag v) = Some g' /\ well_formed ip op G g' /\
      has_gene g num a b (negb v) w /\ node_numbers g' = node_numbers g /\
      g_nodes g' = g_nodes g /\ length (g_conns g') = length (g_conns g) /\
      (forall n' a' b' e' w', has_gene g' n' a' b' e' w' <->
        (n' <> num /\ has_gene g n' a' b' e' w') \/
        (n' = num /\ a' = a /\ b' = b /\ e' = v /\ w' = w)).
  Proof.
    intros Hwf Hk Hf.
    destruct (upd_ok ip op G g k (set_flag v) c Hwf Hk) as (g' & E & W1 & N1 & C1 & I1 & Ge); try done.
    destruct (wf_ends _ _ _ _ Hwf _ _ Hk) as (p & x & y & Ep & Hx & Hy & Hm).
    pose proof (has_gene_intro g k c x y Hk Hx Hy) as Hg.
    exists g', (c_inn c), (n_inn x), (n_inn y), (c_weight c). split; [done|]. split; [done|].
    split; [by rewrite <- Hf|]. split; [unfold node_numbers; by rewrite N1|]. split; [done|].
    split; [by rewrite C1, insert_length|].
    intros n' a' b' e' w'. rewrite Ge. cbn. split.
    - intros [?|(-> & -> & -> & H)]; [by left|right].
      destruct (has_gene_unique _ _ _ _ _ _ _ _ _ _ _ _ _ Hwf H Hg) as (-> & -> & _). done.
    - intros [?|(-> & -> & -> & -> & ->)]; [by left|right]. done.
  Qed.

  Lemma add_ok ip op rmax rand1 rand2 w G g :
    rand_ok rmax rand1 -> rand_ok rmax rand2 -> 1 <= ip -> 1 <= op ->
    consistent ip op G -> well_formed ip op G g ->
    exists r G' g', add_random_connection rmax rand1 rand2 w G g = Some (r, G', g') /\
      consistent ip op G' /\ extends G G' /\ well_formed ip op G' g' /\
      (if r : bool then (G' = G /\ flip_effect false g g') \/ connect_effect ip op w G G' g g'
       else G' = G /\ g' = g /\ forall a b, a ∈ node_numbers g -> b ∈ node_numbers g ->
              ~ is_output ip op a -> ~ is_input ip b -> exists num w', has_gene g num a b true w').
  Proof.
    intros Hr1 Hr2 Hip Hop HG Hwf. unfold add_random_connection.
    destruct (candidates_ok ip op G g Hwf) as (t1 & t2 & Ec & M1 & M2). rewrite Ec. cbn [mbind option_bind fst snd].
    destruct (shuffle_some rmax rand1 t1 Hr1) as (u1 & E1 & P1). rewrite E1. cbn [mbind option_bind].
    destruct (shuffle_some rmax rand2 t2 Hr2) as (u2 & E2 & P2). rewrite E2. cbn [mbind option_bind].
    destruct (get_connections_ok ip op G g HG Hwf) as (ks & Eks & Pks). rewrite Eks. cbn [mbind option_bind].
    assert (M1' : forall i, i ∈ u1 <-> src_ok ip op g i) by (intros i; by rewrite P1).
    assert (M2' : forall i, i ∈ u2 <-> dst_ok ip g i) by (intros i; by rewrite P2).
    clear t1 t2 Ec M1 M2 E1 E2 P1 P2.
    assert (Hks : forall k, k ∈ ks -> k < length (g_conns g)).
    { intros k Hk. rewrite Pks in Hk. apply elem_of_seq in Hk. lia. }
    assert (Hks' : forall k c, g_conns g !! k = Some c -> k ∈ ks).
    { intros k c Hk. rewrite Pks. apply elem_of_seq. apply lookup_lt_Some in Hk. lia. }
    rewrite decide_False.
    2:{ intros [H|H]; apply nil_length_inv in H.
        - destruct (wf_base _ _ _ _ Hwf 0 ltac:(lia)) as (n & Hn & En).
          assert (Hin : 0 ∈ u1). { apply M1'. exists n. split; [done|]. unfold is_output. lia. }
          rewrite H in Hin. by apply elem_of_nil in Hin.
        - destruct (wf_base _ _ _ _ Hwf ip ltac:(lia)) as (n & Hn & En).
          assert (Hin : ip ∈ u2). { apply M2'. exists n. split; [done|]. unfold is_input. lia. }
          rewrite H in Hin. by apply elem_of_nil in Hin. }
    destruct (try_sources_spec ip op G g ks u1 u2 Hwf Hks) as (r & Er & Hr).
    { intros i Hi. apply M1' in Hi as (n & Hn & _). by eapply lookup_lt_Some. }
    { intros i Hi. apply M2' in Hi as (n & Hn & _). by eapply lookup_lt_Some. }
    rewrite Er. cbn [mbind option_bind]. destruct r as [k|i j|].
    - destruct Hr as (c & Hc & Hf).
      destruct (flag_ok ip op G g k c true Hwf Hc Hf) as (g' & num & a & b & w0 & E & W1 & H0 & N1 & _ & _ & Ge).
      rewrite E. cbn [mbind option_bind]. exists true, G, g'. split; [done|]. split; [done|]. split; [apply extends_refl|].
      split; [done|]. left. split; [done|]. by exists num, a, b, w0.
    - destruct Hr as (Hi & Hj & ni & nj & Hni & Hnj & Hfree).
      rewrite (rd_lookup (g_nodes g) i), Hni. cbn [mbind option_bind].
      rewrite (rd_lookup (g_nodes g) j), Hnj. cbn [mbind option_bind]. cbv zeta.
      rewrite (index_of_lookup _ _ _ (wf_numbers _ _ _ _ Hwf) Hni).
      rewrite (index_of_lookup _ _ _ (wf_numbers _ _ _ _ Hwf) Hnj).
      rewrite (rd_lookup (g_nodes g) i), Hni. cbn [mbind option_bind].
      rewrite (rd_lookup (g_nodes g) j), Hnj. cbn [mbind option_bind].
      rewrite take_ge by (by rewrite (co_conns _ _ _ HG)).
      apply M1' in Hi as (ni' & Hni' & Hso). assert (ni' = ni) by congruence. subst ni'. clear Hni'.
      apply M2' in Hj as (nj' & Hnj' & Hdo). assert (nj' = nj) by congruence. subst nj'. clear Hnj'.
      assert (Hina : n_inn ni ∈ node_numbers g).
      { apply elem_of_list_fmap. exists ni. split; [done|]. by eapply elem_of_list_lookup_2. }
      assert (Hinb : n_inn nj ∈ node_numbers g).
      { apply elem_of_list_fmap. exists nj. split; [done|]. by eapply elem_of_list_lookup_2. }
      assert (Hnone : forall n' e' w', ~ has_gene g n' (n_inn ni) (n_inn nj) e' w').
      { intros n' e' w' (k & i' & j' & x & y & Hk & Hx & Ea & Hy & Eb).
        apply (Hfree k (mkConn n' i' j' e' w')); [by eapply Hks'|done|]. by exists x, y. }
      assert (Hnotin : forall G' p, well_formed ip op G' g -> gl_mconns G' !! p = Some (n_inn ni, n_inn nj) ->
                S p ∉ c_inn <$> g_conns g).
      { intros G' p Hwf' Hp Hin. apply elem_of_list_fmap in Hin as (c & E & Hc).
        apply elem_of_list_lookup in Hc as [k Hk].
        destruct (wf_ends _ _ _ _ Hwf' _ _ Hk) as (p' & x & y & Ep & Hx & Hy & Hp').
        assert (p' = p) by congruence. subst. rewrite Hp in Hp'. injection Hp' as E1 E2.
        apply (Hfree k c); [by eapply Hks'|done|]. by exists x, y. }
      pose proof (position_of_spec (n_inn ni) (n_inn nj) (gl_mconns G)) as Hpos.
      destruct (position_of (n_inn ni) (n_inn nj) (gl_mconns G)) as [z|].
      + replace (z + 1) with (S z) by lia.
        destruct (attach_ok ip op G g z i j ni nj true w Hwf Hni Hnj Hpos) as (g' & E & W1 & N1 & I1 & _ & Ge).
        { by apply (Hnotin G). }
        rewrite E. cbn [mbind option_bind]. exists true, G, g'. split; [done|]. split; [done|]. split; [apply extends_refl|].
        split; [done|]. right. exists (S z), (n_inn ni), (n_inn nj). repeat (split; [done|]).
        left. by replace (S z - 1) with z by lia.
      + set (G' := mkGlobals _ _ _ _ _).
        assert (HG' : consistent ip op G').
        { apply consistent_add; try done; by apply (wf_range _ _ _ _ Hwf). }
        assert (Hext : extends G G'). { split; [done|]. split; [by eexists|]. intros p s Hp _. cbn. by apply lookup_app_l_Some. }
        pose proof (wf_extend _ _ _ _ _ Hext Hwf) as Hwf'.
        assert (Hp : gl_mconns G' !! gl_conns G = Some (n_inn ni, n_inn nj)).
        { cbn. rewrite lookup_app_r by (rewrite (co_conns _ _ _ HG); lia).
          by rewrite (co_conns _ _ _ HG), Nat.sub_diag. }
        replace (gl_conns G' - 1 + 1) with (S (gl_conns G)) by (cbn; lia).
        destruct (attach_ok ip op G' g (gl_conns G) i j ni nj true w Hwf' Hni Hnj Hp) as (g' & E & W1 & N1 & I1 & _ & Ge).
        { by apply (Hnotin G'). }
        rewrite E. cbn [mbind option_bind]. exists true, G', g'. split; [done|]. split; [done|]. split; [done|].
        split; [done|]. right. exists (S (gl_conns G)), (n_inn ni), (n_inn nj). repeat (split; [done|]).
        right. split; [done|]. split; [lia|]. done.
    - exists false, G, g. split; [done|]. split; [done|]. split; [apply extends_refl|]. split; [done|].
      split; [done|]. split; [done|]. intros a b Ha Hb Hoa Hib.
      apply elem_of_list_fmap in Ha as (ni & -> & Hni). apply elem_of_list_lookup in Hni as [i Hi].
      apply elem_of_list_fmap in Hb as (nj & -> & Hnj). apply elem_of_list_lookup in Hnj as [j Hj].
      destruct (Hr i j ni nj) as (k & c & Hc & (x & y & Hx & Hy & <- & <-) & Hf); try done.
      { apply M1'. by exists ni. }
      { apply M2'. by exists nj. }
      exists (c_inn c), (c_weight c). rewrite <- Hf. by apply (has_gene_intro g k).
  Qed.

  (** ** Disabling and enabling *)

  Lemma flip_first_ok ip op G g v ks :
    well_formed ip op G g -> (forall k, k ∈ ks -> k < length (g_conns g)) ->
    exists r g', flip_first v g ks = Some (r, g') /\ well_formed ip op G g' /\
      if r : bool then
        (exists num a b w, has_gene g num a b v w /\ node_numbers g' = node_numbers g /\
          forall n' a' b' e' w', has_gene g' n' a' b' e' w' <->
            (n' <> num /\ has_gene g n' a' b' e' w') \/
            (n' = num /\ a' = a /\ b' = b /\ e' = negb v /\ w' = w))
      else g' = g /\ forall k c, k ∈ ks -> g_conns g !! k = Some c -> c_flag c <> v.
  Proof.
    intros Hwf. induction ks as [|k ks IH]; intros Hks.
    - exists false, g. split; [done|]. split; [done|]. split; [done|]. intros k c H. by apply elem_of_nil in H.
    - destruct (lookup_lt_is_Some_2 _ _ (Hks k ltac:(left))) as [c Hc]. cbn. rewrite rd_lookup, Hc. cbn.
      destruct (decide (c_flag c = v)) as [Hf|Hf].
      + destruct (flag_ok ip op G g k c (negb v) Hwf Hc) as (g' & num & a & b & w & E & W1 & H0 & N1 & _ & _ & Ge).
        { by rewrite negb_involutive. }
        rewrite E. cbn. rewrite negb_involutive in H0. exists true, g'. split; [done|]. split; [done|].
        by exists num, a, b, w.
      + destruct IH as (r & g' & E & W1 & H1). { intros k' Hk'. apply Hks. by right. }
        exists r, g'. split; [done|]. split; [done|]. destruct r; [done|]. destruct H1 as [-> H1].
        split; [done|]. intros k' c' Hk' Hc'. apply elem_of_cons in Hk' as [->|Hk']; [congruence|by eapply H1].
  Qed.

  Lemma flip_ok ip op v rmax rand G g :
    rand_ok rmax rand -> consistent ip op G -> well_formed ip op G g ->
    exists r g', flip_random_connection v rmax rand g (gl_conns G) = Some (r, g') /\ well_formed ip op G g' /\
      if r : bool then
        (exists num a b w, has_gene g num a b v w /\ node_numbers g' = node_numbers g /\
          forall n' a' b' e' w', has_gene g' n' a' b' e' w' <->
            (n' <> num /\ has_gene g n' a' b' e' w') \/
            (n' = num /\ a' = a /\ b' = b /\ e' = negb v /\ w' = w))
      else g' = g /\ forall num a b w, ~ has_gene g num a b v w.
  Proof.
    intros Hr HG Hwf. unfold flip_random_connection.
    destruct (get_connections_ok ip op G g HG Hwf) as (ks & Eks & Pks). rewrite Eks. cbn [mbind option_bind].
    assert (Hlen : length ks = length (g_conns g)). { rewrite Pks. apply seq_length. }
    destruct (decide (length ks = 0)) as [H0|H0].
    - exists false, g. split; [done|]. split; [done|]. split; [done|].
      intros num a b w (k & i & j & x & y & Hk & _). apply lookup_lt_Some in Hk. lia.
    - destruct (shuffle_some rmax rand ks Hr) as (u & Eu & Pu). rewrite Eu. cbn [mbind option_bind].
      destruct (flip_first_ok ip op G g v u Hwf) as (r & g' & E & W1 & H1).
      { intros k Hk. rewrite Pu, Pks in Hk. apply elem_of_seq in Hk. lia. }
      exists r, g'. split; [done|]. split; [done|]. destruct r; [done|]. destruct H1 as [-> H1]. split; [done|].
      intros num a b w (k & i & j & x & y & Hk & _). apply (H1 k (mkConn num i j v w)); [|done|done].
      rewrite Pu, Pks. apply elem_of_seq. apply lookup_lt_Some in Hk. lia.
  Qed.

  (** a loop that only changes flags and weights *)
  Definition same_shape g g' : Prop :=
    g_nodes g' = g_nodes g /\ length (g_conns g') = length (g_conns g) /\
    forall k c', g_conns g' !! k = Some c' -> exists c, g_conns g !! k = Some c /\
      c_inn c' = c_inn c /\ c_src c' = c_src c /\ c_dst c' = c_dst c.

  Lemma upd_shape g0 g k f c :
    (forall c, c_inn (f c) = c_inn c /\ c_src (f c) = c_src c /\ c_dst (f c) = c_dst c) ->
    same_shape g0 g -> g_conns g !! k = Some c ->
    exists g', upd_conn g k f = Some g' /\ same_shape g0 g' /\ g_conns g' = <[k:=f c]> (g_conns g).
  Proof.
    intros Hf (S1 & S2 & S3) Hk. rewrite (upd_conn_eq _ _ _ _ Hk). eexists. split; [done|]. split; [|done].
    split; [done|]. cbn. split; [by rewrite insert_length|]. intros q c' Hq.
    destruct (decide (q = k)) as [->|Hne].
    - rewrite list_lookup_insert in Hq by (by eapply lookup_lt_Some). simplify_eq.
      destruct (S3 k c Hk) as (c0 & H0 & E1 & E2 & E3). destruct (Hf c) as (F1 & F2 & F3).
      exists c0. rewrite F1, F2, F3. done.
    - rewrite list_lookup_insert_ne in Hq by done. by apply S3.
  Qed.

  (** the genome after the i-th connection of the enumeration has its weight changed *)
  Lemma weights_ok ip op G g f :
    consistent ip op G -> well_formed ip op G g ->
    exists g', connections_mutation g (gl_conns G) f = Some g' /\ well_formed ip op G g' /\
      node_numbers g' = node_numbers g /\
      exists F : nat -> W -> W, (forall num, exists i, F num = f i) /\
        forall num a b e w', has_gene g' num a b e w' <-> exists w, has_gene g num a b e w /\ w' = F num w.
  Proof.
    intros HG Hwf. unfold connections_mutation.
    destruct (get_connections_ok ip op G g HG Hwf) as (ks & Eks & Pks). rewrite Eks. cbn [mbind option_bind].
    assert (Hnd : NoDup ks) by (rewrite Pks; apply NoDup_seq).
    assert (Hlen : length ks = length (g_conns g)). { rewrite Pks. apply seq_length. }
    destruct (for_loop_inv (fun i g' => well_formed ip op G g' /\ g_nodes g' = g_nodes g /\
                length (g_conns g') = length (g_conns g) /\
                forall k j c, ks !! j = Some k -> g_conns g !! k = Some c ->
                  g_conns g' !! k = Some (if decide (j < i) then set_weight (f j) c else c))
                (fun i g => k ← rd ks i; upd_conn g k (set_weight (f i))) (length ks) 0 g)
      as (g' & E & W1 & N1 & L1 & H1).
    - split; [done|]. split; [done|]. split; [done|]. done.
    - intros i g1 Hi (W1 & N1 & L1 & H1).
      destruct (lookup_lt_is_Some_2 ks i) as [k Hk]; [lia|]. rewrite rd_lookup, Hk. cbn [mbind option_bind].
      assert (Hkl : k < length (g_conns g)).
      { assert (Hin : k ∈ ks) by (by eapply elem_of_list_lookup_2). rewrite Pks in Hin. apply elem_of_seq in Hin. lia. }
      destruct (lookup_lt_is_Some_2 _ _ Hkl) as [c Hc].
      pose proof (H1 k i c Hk Hc) as Hc1. rewrite decide_False in Hc1 by lia.
      destruct (upd_ok ip op G g1 k (set_weight (f i)) c W1 Hc1) as (g2 & E2 & W2 & N2 & C2 & _ & _); try done.
      exists g2. split; [done|]. split; [done|]. split; [congruence|]. split; [by rewrite C2, insert_length|].
      intros k' j c' Hk' Hc'. rewrite C2. destruct (decide (k' = k)) as [->|Hne].
      + assert (j = i) by (by eapply NoDup_lookup). subst. rewrite list_lookup_insert by lia.
        rewrite decide_True by lia. by simplify_eq.
      + rewrite list_lookup_insert_ne by done. rewrite (H1 k' j c' Hk' Hc').
        assert (j <> i) by congruence. destruct (decide (j < i)), (decide (j < S i)); try lia; done.
    - rewrite E. cbn [mbind option_bind]. exists g'. split; [done|]. split; [done|].
      split; [unfold node_numbers; by rewrite N1|].
      (* the position in the enumeration of the connection with a number *)
      exists (fun num => f (match list_find (fun k => c_inn <$> g_conns g !! k = Some num) ks with
                            | Some (j, _) => j | None => 0 end)).
      split; [intros num; by eexists|].
      assert (Hfind : forall k j c, ks !! j = Some k -> g_conns g !! k = Some c ->
                list_find (fun k => c_inn <$> g_conns g !! k = Some (c_inn c)) ks = Some (j, k)).
      { intros k j c Hk Hc. apply list_find_Some. split; [done|]. split; [by rewrite Hc|].
        intros j' k' Hk' Hlt Heq. destruct (g_conns g !! k') as [c'|] eqn:Hc'; [|done]. cbn in Heq. simplify_eq.
        destruct (gene_inj _ _ _ _ _ _ _ _ Hwf Hc' Hc Heq) as [-> _].
        assert (j' = j) by (by eapply NoDup_lookup). lia. }
      assert (Hpos : forall k, k < length (g_conns g) -> exists j, ks !! j = Some k /\ j < length ks).
      { intros k Hk. assert (Hin : k ∈ ks). { rewrite Pks. apply elem_of_seq. lia. }
        apply elem_of_list_lookup in Hin as [j Hj]. exists j. split; [done|]. by eapply lookup_lt_Some. }
      intros num a b e w'. split.
      + intros (k & i & j & x & y & Hk & Hx & Ea & Hy & Eb). rewrite N1 in Hx, Hy.
        pose proof (lookup_lt_Some _ _ _ Hk) as Hkl. rewrite L1 in Hkl.
        destruct (lookup_lt_is_Some_2 _ _ Hkl) as [c Hc]. destruct (Hpos k Hkl) as (z & Hz & Hzl).
        rewrite (H1 k z c Hz Hc) in Hk. rewrite decide_True in Hk by lia.
        exists (c_weight c). apply (inj Some) in Hk. destruct c as [ci cs cd cf cw]. unfold set_weight in Hk. cbn in Hk.
        simplify_eq. split.
        * by exists k, i, j, x, y.
        * pose proof (Hfind k z _ Hz Hc) as Hf. cbn in Hf. by rewrite Hf.
      + intros (w & (k & i & j & x & y & Hk & Hx & Ea & Hy & Eb) & ->).
        pose proof (lookup_lt_Some _ _ _ Hk) as Hkl. destruct (Hpos k Hkl) as (z & Hz & Hzl).
        exists k, i, j, x, y. rewrite N1. split; [|done]. rewrite (H1 k z _ Hz Hk), decide_True by lia.
        unfold set_weight. cbn. pose proof (Hfind k z _ Hz Hk) as Hf. cbn in Hf. by rewrite Hf.
  Qed.

  Lemma activate_many_ok ip op rmax rand coin G g :
    rand_ok rmax rand -> consistent ip op G -> well_formed ip op G g ->
    exists r g', activate_connections rmax rand coin g (gl_conns G) = Some (r, g') /\ well_formed ip op G g' /\
      node_numbers g' = node_numbers g /\
      (r = true <-> exists num a b w, has_gene g num a b false w /\ has_gene g' num a b true w) /\
      exists C : nat -> bool, (forall num, exists i, C num = coin i) /\
        forall num a b e w, has_gene g' num a b e w <->
          exists e0, has_gene g num a b e0 w /\ e = (e0 || C num).
  Proof.
    intros Hr HG Hwf. unfold activate_connections.
    destruct (get_connections_ok ip op G g HG Hwf) as (ks0 & Eks & Pks0). rewrite Eks. cbn [mbind option_bind].
    assert (Hlen0 : length ks0 = length (g_conns g)). { rewrite Pks0. apply seq_length. }
    destruct (decide (length ks0 = 0)) as [H0|H0].
    { exists false, g. split; [done|]. split; [done|]. split; [done|].
      assert (Hno : forall num a b e w, ~ has_gene g num a b e w).
      { intros num a b e w (k & i & j & x & y & Hk & _). apply lookup_lt_Some in Hk. lia. }
      split; [split; [done|]; intros (num & a & b & w & H & _); by apply Hno in H|].
      exists (fun _ => coin 0). split; [intros _; by exists 0|]. intros num a b e w. split.
      - intros H. by apply Hno in H.
      - intros (e0 & H & _). by apply Hno in H. }
    destruct (shuffle_some rmax rand ks0 Hr) as (ks & Eu & Pu). rewrite Eu. cbn [mbind option_bind].
    assert (Pks : ks ≡ₚ seq 0 (length (g_conns g))) by (by rewrite Pu).
    clear ks0 Eks Pks0 Hlen0 H0 Eu Pu.
    assert (Hnd : NoDup ks) by (rewrite Pks; apply NoDup_seq).
    assert (Hlen : length ks = length (g_conns g)). { rewrite Pks. apply seq_length. }
    set (on := fun i (c : conn W) => set_flag (c_flag c || coin i) c).
    destruct (for_loop_inv (fun i (s : bool * genome W) => well_formed ip op G (snd s) /\ g_nodes (snd s) = g_nodes g /\
                length (g_conns (snd s)) = length (g_conns g) /\
                (fst s = true <-> exists j k c, j < i /\ ks !! j = Some k /\ g_conns g !! k = Some c /\ c_flag c = false /\ coin j = true) /\
                forall k j c, ks !! j = Some k -> g_conns g !! k = Some c ->
                  g_conns (snd s) !! k = Some (if decide (j < i) then on j c else c))
                (fun i '(flag, g) =>
                  k ← rd ks i; x ← rd (g_conns g) k;
                  if c_flag x then Some (flag, g)
                  else if coin i then g' ← upd_conn g k (set_flag true); Some (true, g')
                  else Some (flag, g)) (length ks) 0 (false, g))
      as ([r g'] & E & W1 & N1 & L1 & F1 & H1).
    - cbn. split; [done|]. split; [done|]. split; [done|]. split; [|done].
      split; [done|]. intros (j & k & c & ? & _). lia.
    - intros i [r g1] Hi (W1 & N1 & L1 & F1 & H1). cbn [fst snd] in *.
      destruct (lookup_lt_is_Some_2 ks i) as [k Hk]; [lia|]. rewrite rd_lookup, Hk. cbn [mbind option_bind].
      assert (Hkl : k < length (g_conns g)).
      { assert (Hin : k ∈ ks) by (by eapply elem_of_list_lookup_2). rewrite Pks in Hin. apply elem_of_seq in Hin. lia. }
      destruct (lookup_lt_is_Some_2 _ _ Hkl) as [c Hc].
      pose proof (H1 k i c Hk Hc) as Hc1. rewrite decide_False in Hc1 by lia.
      rewrite (rd_lookup (g_conns g1)), Hc1. cbn [mbind option_bind].
      assert (Hskip : on i c = c -> (c_flag c = true \/ coin i = false) -> 
        exists s' : bool * genome W, Some (r, g1) = Some s' /\ well_formed ip op G (snd s') /\ g_nodes (snd s') = g_nodes g /\
                length (g_conns (snd s')) = length (g_conns g) /\
                (fst s' = true <-> exists j k c, j < S i /\ ks !! j = Some k /\ g_conns g !! k = Some c /\ c_flag c = false /\ coin j = true) /\
                forall k j c, ks !! j = Some k -> g_conns g !! k = Some c ->
                  g_conns (snd s') !! k = Some (if decide (j < S i) then on j c else c)).
      { intros Eon Hor. exists (r, g1). split; [done|]. cbn [fst snd]. split; [done|]. split; [done|]. split; [done|]. split.
        - rewrite F1. split.
          + intros (j & k' & c' & ? & ?). exists j, k', c'. split; [lia|done].
          + intros (j & k' & c' & Hj & Hk' & Hc' & Hf & Hcoin). exists j, k', c'. split; [|done].
            destruct (decide (j = i)) as [->|]; [|lia]. assert (k' = k) by congruence. subst.
            assert (c' = c) by congruence. subst. destruct Hor; congruence.
        - intros k' j c' Hk' Hc'. rewrite (H1 k' j c' Hk' Hc').
          destruct (decide (j < i)), (decide (j < S i)); try lia; try done.
          assert (j = i) by lia. subst. assert (k' = k) by congruence. subst. assert (c' = c) by congruence. subst.
          by rewrite Eon. }
      destruct (c_flag c) eqn:Ef.
      { apply Hskip; [|by left]. unfold on, set_flag. rewrite Ef. cbn. destruct c. cbn in *. by subst. }
      destruct (coin i) eqn:Ecoin.
      2:{ apply Hskip; [|by right]. unfold on, set_flag. rewrite Ef, Ecoin. cbn. destruct c. cbn in *. by subst. }
      clear Hskip.
      destruct (upd_ok ip op G g1 k (set_flag true) c W1 Hc1) as (g2 & E2 & W2 & N2 & C2 & _ & _); try done.
      rewrite E2. cbn [mbind option_bind]. exists (true, g2). split; [done|]. cbn [fst snd]. split; [done|].
      split; [congruence|]. split; [by rewrite C2, insert_length|]. split.
      { split; [|done]. intros _. exists i, k, c. split; [lia|done]. }
      intros k' j c' Hk' Hc'. rewrite C2. destruct (decide (k' = k)) as [->|Hne].
      + assert (j = i) by (by eapply NoDup_lookup). subst. rewrite list_lookup_insert by lia.
        rewrite decide_True by lia. assert (c' = c) by congruence. subst. unfold on. by rewrite Ef, Ecoin.
      + rewrite list_lookup_insert_ne by done. rewrite (H1 k' j c' Hk' Hc').
        assert (j <> i) by congruence. destruct (decide (j < i)), (decide (j < S i)); try lia; done.
    - rewrite E. exists r, g'. cbn [fst snd] in *. split; [done|]. split; [done|].
      split; [unfold node_numbers; by rewrite N1|].
      set (C := fun num => coin (match list_find (fun k => c_inn <$> g_conns g !! k = Some num) ks with
                            | Some (j, _) => j | None => 0 end)).
      assert (Hfind : forall k j c, ks !! j = Some k -> g_conns g !! k = Some c ->
                list_find (fun k => c_inn <$> g_conns g !! k = Some (c_inn c)) ks = Some (j, k)).
      { intros k j c Hk Hc. apply list_find_Some. split; [done|]. split; [by rewrite Hc|].
        intros j' k' Hk' Hlt Heq. destruct (g_conns g !! k') as [c'|] eqn:Hc'; [|done]. cbn in Heq. simplify_eq.
        destruct (gene_inj _ _ _ _ _ _ _ _ Hwf Hc' Hc Heq) as [-> _].
        assert (j' = j) by (by eapply NoDup_lookup). lia. }
      assert (Hpos : forall k, k < length (g_conns g) -> exists j, ks !! j = Some k /\ j < length ks).
      { intros k Hk. assert (Hin : k ∈ ks). { rewrite Pks. apply elem_of_seq. lia. }
        apply elem_of_list_lookup in Hin as [j Hj]. exists j. split; [done|]. by eapply lookup_lt_Some. }
      assert (Hgenes : forall num a b e w, has_gene g' num a b e w <->
          exists e0, has_gene g num a b e0 w /\ e = (e0 || C num)).
      { intros num a b e w. split.
        - intros (k & i & j & x & y & Hk & Hx & Ea & Hy & Eb). rewrite N1 in Hx, Hy.
          pose proof (lookup_lt_Some _ _ _ Hk) as Hkl. rewrite L1 in Hkl.
          destruct (lookup_lt_is_Some_2 _ _ Hkl) as [c Hc]. destruct (Hpos k Hkl) as (z & Hz & Hzl).
          rewrite (H1 k z c Hz Hc) in Hk. rewrite decide_True in Hk by lia.
          exists (c_flag c). apply (inj Some) in Hk. pose proof (Hfind k z c Hz Hc) as Hf.
          destruct c as [ci cs cd cf cw]. unfold on, set_flag in Hk. cbn in Hk, Hf. simplify_eq. split.
          + cbn. by exists k, i, j, x, y.
          + unfold C. cbn. by rewrite Hf.
        - intros (e0 & (k & i & j & x & y & Hk & Hx & Ea & Hy & Eb) & ->).
          pose proof (lookup_lt_Some _ _ _ Hk) as Hkl. destruct (Hpos k Hkl) as (z & Hz & Hzl).
          exists k, i, j, x, y. rewrite N1. split; [|done]. rewrite (H1 k z _ Hz Hk), decide_True by lia.
          unfold on, set_flag, C. cbn. pose proof (Hfind k z _ Hz Hk) as Hf. cbn in Hf. by rewrite Hf. }
      split.
      + rewrite F1. split.
        * intros (j & k & c & Hj & Hk & Hc & Hf & Hcoin).
          destruct (wf_ends _ _ _ _ Hwf _ _ Hc) as (p & x & y & Ep & Hx & Hy & Hm).
          pose proof (has_gene_intro g k c x y Hc Hx Hy) as Hg. rewrite Hf in Hg.
          exists (c_inn c), (n_inn x), (n_inn y), (c_weight c). split; [done|]. apply Hgenes.
          exists false. split; [done|]. unfold C. rewrite (Hfind k j c Hk Hc). by rewrite Hcoin.
        * intros (num & a & b & w & Hg & Hg'). apply Hgenes in Hg' as (e0 & Hg' & Ee).
          destruct (has_gene_unique _ _ _ _ _ _ _ _ _ _ _ _ _ Hwf Hg Hg') as (_ & _ & <- & _). cbn in Ee.
          destruct Hg as (k & i & j & x & y & Hk & _).
          pose proof (lookup_lt_Some _ _ _ Hk) as Hkl. destruct (Hpos k Hkl) as (z & Hz & Hzl).
          exists z, k, (mkConn num i j false w). split; [done|]. split; [done|]. split; [done|]. split; [done|].
          unfold C in Ee. pose proof (Hfind k z _ Hz Hk) as Hf. cbn in Hf. by rewrite Hf in Ee.
      + exists C. split; [intros num; by eexists|done].
  Qed.
End proofs.
