From Coq Require Import Reals Lra.
From Verif Require Import Base BaseLemmas Neat_Model Neat_Spec Mcts_Model Ff_Model Ff_Proofs Ff2_Proofs Ff3_Proofs Ff4_Proofs Ff6_Proofs.
Open Scope nat_scope.

Definition total (l : list R) : R := foldr Rplus 0%R l.
Lemma each_pre {A S} (f : S -> A -> option S) (P : list A -> S -> Prop) l s s' :
  each f l s = Some s' -> P [] s -> (forall l1 x l2 s s', l = l1 ++ x :: l2 -> f s x = Some s' -> P l1 s -> P (l1 ++ [x]) s') -> P l s'.
Proof.
  intros E Hs H. assert (Q : forall l2 l1 s, l = l1 ++ l2 -> P l1 s -> each f l2 s = Some s' -> P l s').
  { induction l2 as [|x l2 IH]; intros l1 t El Ht E'.
    - rewrite app_nil_r in El. subst l1. cbn in E'. by injection E' as <-.
    - cbn [each] in E'. apply bind_Some in E' as (t' & E1' & E'). apply (IH (l1 ++ [x]) t'); [by rewrite <- (assoc_L (++))| |done]. by apply (H l1 x l2 t). }
  by apply (Q l [] s).
Qed.

Section values.
Context (sig : R -> R) (N : nat) (g : genome R) (Hg : okg N g).
Notation n := (length (g_nodes g)). Notation nc := (length (g_conns g)).
Context (Hforest : forall k k', k ∈ live g (dst g k) -> k' ∈ live g (dst g k') -> src g k = src g k' -> g_input g <= src g k -> k = k').
Context (Hfed : forall v d, dist g v d -> g_input g + g_output g <= v -> live g v <> []).
Definition wgt k : R := match g_conns g !! k with Some c => c_weight c | None => 0%R end.
Definition signal_ (V : nat -> R) v : R := if decide (v < g_input g) then V v else sig (V v).
Definition contrib (V : nat -> R) k : R := (signal_ V (src g k) * wgt k)%R.
Context (V : nat -> R) (HV : forall v d, dist g v d -> g_input g <= v -> V v = total (contrib V <$> live g v)).
Implicit Types s : ev (F:=R).

Definition done_ s k : Prop := e_cf s !! k = Some (-2)%Z.
Definition todo s k : Prop := e_cf s !! k = Some (-1)%Z.
Definition full s v : Prop := forall k, k ∈ live g v -> done_ s k.
Definition acc_ (cf : list Z) v : R := total ((fun k => if decide (cf !! k = Some (-2)%Z) then contrib V k else 0%R) <$> ins g v).
Record inv (D : list nat) s : Prop := {
  iv_ok : ok g s;
  iv_cf : forall k, used N g k <-> todo s k \/ done_ s k;
  iv_val : forall v, g_input g <= v < n -> e_val s !! v = Some (acc_ (e_cf s) v);
  iv_inp : forall v, v < g_input g -> e_val s !! v = Some (V v);
  iv_src : forall k, done_ s k -> g_input g <= src g k -> full s (src g k);
  iv_out : forall v k' k, v ∉ D -> g_input g <= v -> k' ∈ live g v -> done_ s k' -> used N g k -> src g k = v -> done_ s k }.

Lemma inv_ext D s s' : inv D s -> ok g s' -> e_cf s' = e_cf s -> e_val s' = e_val s -> inv D s'.
Proof. intros [H1 H2 H3 H4 H5 H6] Ho Ec Ev. split; unfold todo, done_, full, done_ in *; rewrite ?Ec, ?Ev; done. Qed.
Lemma inv_weaken D D' s : inv D s -> D ⊆ D' -> inv D' s.
Proof. intros [H1 H2 H3 H4 H5 H6] HD. split; try done. intros v k' k Hv. apply H6. intros H. by apply Hv, HD. Qed.
Lemma inv_drop D v s : inv (v :: D) s -> (forall k, used N g k -> src g k = v -> done_ s k) -> inv D s.
Proof.
  intros [H1 H2 H3 H4 H5 H6] Hd. split; try done. intros w k' k Hw Hi Hk' Hd' Hu E. destruct (decide (w = v)) as [->|Hne]; [by apply Hd|].
  apply (H6 w k' k); try done. intros H. apply elem_of_cons in H as [|]; done.
Qed.

Lemma acc_insert cf k v : NoDup (ins g v) -> k ∈ ins g v -> k < length cf -> cf !! k <> Some (-2)%Z -> acc_ (<[k:=(-2)%Z]> cf) v = (acc_ cf v + contrib V k)%R.
Proof.
  intros Hnd Hk Hlt Hne. unfold acc_. revert Hnd Hk. induction (ins g v) as [|x l IH]; intros Hnd Hk; [by apply elem_of_nil in Hk|].
  apply list.NoDup_cons in Hnd as [Hx Hnd]. cbn. destruct (decide (x = k)) as [->|Hxk].
  - rewrite decide_True by (by rewrite list_lookup_insert). rewrite (decide_False (P := cf !! k = _)) by done.
    assert (E : (fun j => if decide (<[k:=(-2)%Z]> cf !! j = Some (-2)%Z) then contrib V j else 0%R) <$> l = (fun j => if decide (cf !! j = Some (-2)%Z) then contrib V j else 0%R) <$> l).
    { apply list_fmap_ext. intros i j Hj. rewrite list_lookup_insert_ne; [done|]. intros <-. apply Hx. by eapply elem_of_list_lookup_2. }
    rewrite E. lra.
  - apply elem_of_cons in Hk as [|Hk]; [done|]. rewrite list_lookup_insert_ne by done. unfold total in IH. rewrite (IH Hnd Hk). lra.
Qed.
Lemma acc_insert_ne cf k v : k ∉ ins g v -> acc_ (<[k:=(-2)%Z]> cf) v = acc_ cf v.
Proof.
  intros Hk. unfold acc_. f_equal. apply list_fmap_ext. intros i j Hj. rewrite list_lookup_insert_ne; [done|]. intros <-. apply Hk. by eapply elem_of_list_lookup_2.
Qed.
Lemma ins_iff k v : v < n -> k ∈ ins g v <-> k < nc /\ dst g k = v.
Proof using Hg.
  intros Hv. unfold ins. destruct (lookup_lt_is_Some_2 _ _ Hv) as [nd En]. rewrite En. destruct (ok_in _ _ Hg v nd En) as [_ H]. rewrite H. unfold dst. split.
  - intros (c & Hc & E). rewrite Hc. split; [by eapply lookup_lt_Some|done].
  - intros [Hk E]. destruct (lookup_lt_is_Some_2 _ _ Hk) as [c Hc]. rewrite Hc in E. eauto.
Qed.
Lemma ins_nodup v : NoDup (ins g v).
Proof using Hg. unfold ins. destruct (g_nodes g !! v) as [nd|] eqn:En; [|constructor]. by destruct (ok_in _ _ Hg v nd En). Qed.

Lemma full_val D s v d : inv D s -> dist g v d -> g_input g <= v -> full s v -> e_val s !! v = Some (V v).
Proof using Hg HV.
  intros Hs Hd Hi Hf. pose proof (dist_lt N g Hg v d Hd) as Hv. rewrite (iv_val _ _ Hs v) by lia. rewrite (HV v d Hd Hi). f_equal. unfold acc_.
  assert (H : forall k, k ∈ ins g v -> e_cf s !! k = Some (-2)%Z <-> Is_true (on g k)).
  { intros k Hk. split.
    - intros E. assert (Hu : used N g k) by (apply (iv_cf _ _ Hs); by right). apply (used_live N g Hg) in Hu. by destruct (live_facts N g Hg _ _ Hu) as (_ & _ & _ & _ & ->).
    - intros E. apply Hf. unfold live. by apply elem_of_list_filter. }
  unfold live. clear -H. induction (ins g v) as [|k l IH]; [done|]. cbn [fmap list_fmap total foldr]. unfold total in *. cbn [foldr].
  rewrite IH by (intros j Hj; apply H; by right). pose proof (H k ltac:(left)) as Hk. destruct (decide (e_cf s !! k = Some (-2)%Z)) as [D1|D1].
  - rewrite list.filter_cons_True by (by apply Hk). done.
  - rewrite list.filter_cons_False by (by rewrite <- Hk). lra.
Qed.

(** a connection is accounted for *)
Lemma inv_done D s s' k x : inv D s -> used N g k -> todo s k -> dst g k ∈ D -> (g_input g <= src g k -> full s (src g k)) -> src g k <> dst g k ->
  ok g s' -> e_cf s' = <[k:=(-2)%Z]> (e_cf s) -> e_val s !! dst g k = Some x -> e_val s' = <[dst g k := (x + contrib V k)%R]> (e_val s) -> inv D s'.
Proof using Hg.
  intros Hs Hu Ht HD Hsrc Hne Ho Ec Hx Ev. pose proof (used_live N g Hg k Hu) as Hl. destruct (live_facts N g Hg k _ Hl) as (_ & _ & Hr & Hk & _).
  assert (Hlen : k < length (e_cf s)) by (by destruct (iv_ok _ _ Hs) as (_ & _ & _ & ->)).
  assert (Hlv : dst g k < length (e_val s)) by (destruct (iv_ok _ _ Hs) as (-> & _); lia).
  assert (Hd : forall j, done_ s j -> done_ s' j).
  { intros j Hj. unfold done_ in *. rewrite Ec. destruct (decide (k = j)) as [<-|]; [by rewrite list_lookup_insert|by rewrite list_lookup_insert_ne]. }
  assert (Hd' : forall j, done_ s' j -> j = k \/ done_ s j).
  { intros j Hj. unfold done_ in *. rewrite Ec in Hj. destruct (decide (k = j)) as [<-|]; [by left|right; by rewrite list_lookup_insert_ne in Hj]. }
  assert (Hdk : done_ s' k) by (unfold done_; by rewrite Ec, list_lookup_insert).
  split; [done|..].
  - intros j. rewrite (iv_cf _ _ Hs j). unfold todo, done_. rewrite Ec. destruct (decide (k = j)) as [<-|Hj]; [|by rewrite list_lookup_insert_ne].
    rewrite list_lookup_insert by done. unfold todo in Ht. rewrite Ht. split; [by right|by left].
  - intros v Hv. rewrite Ev, Ec. destruct (decide (v = dst g k)) as [->|Hvn].
    + rewrite list_lookup_insert by done. rewrite (iv_val _ _ Hs (dst g k) Hr) in Hx. injection Hx as <-. f_equal. symmetry. apply acc_insert; [apply ins_nodup| |done|].
      * apply ins_iff; [lia|done]. * unfold todo in Ht. by rewrite Ht.
    + rewrite list_lookup_insert_ne by done. rewrite (iv_val _ _ Hs v Hv). f_equal. symmetry. apply acc_insert_ne. rewrite ins_iff by lia. intros [_ E]. done.
  - intros v Hv. rewrite Ev, list_lookup_insert_ne by lia. by apply (iv_inp _ _ Hs).
  - intros j Hj Hi j' Hj'. apply Hd. apply Hd' in Hj as [->|Hj]; [by apply Hsrc|by apply (iv_src _ _ Hs j)].
  - intros v j' j Hv Hi Hj' Hdj Huj Ej. apply Hd. apply Hd' in Hdj as [->|Hdj].
    + destruct (live_facts N g Hg k v Hj') as (E & _). congruence.
    + by apply (iv_out _ _ Hs v j' j).
Qed.

Context (array : list bool) (Hmark : forall v, v < n -> array !! nmb g v = Some true -> v < g_input g).

Lemma put_nf_inv D i b s s' : put_nf i b s = Some s' -> inv D s -> i < n -> inv D s' /\ e_cf s' = e_cf s /\ e_val s' = e_val s /\ e_nf s' = <[i:=b]> (e_nf s).
Proof.
  intros E Hs Hi. unfold put_nf in E. apply bind_Some in E as (l & El & E). injection E as <-. apply wr_inv in El as [Hlt ->]. cbn. split; [|done].
  apply (inv_ext D s); [done| |done|done]. destruct (iv_ok _ _ Hs) as (? & ? & ? & ?). unfold ok. cbn. by rewrite insert_length.
Qed.

Definition frame s s' e : Prop := (forall k' d, used N g k' -> dist g (dst g k') d -> d < e -> e_cf s' !! k' = e_cf s !! k') /\
  (forall k', done_ s k' -> done_ s' k') /\
  (forall v, (v < g_input g \/ exists d, dist g v d /\ d <= e) -> e_nf s !! v = Some true -> e_nf s' !! v = Some true).

Lemma src_dist k e : used N g k -> dist g (dst g k) e -> dist g (src g k) (S e).
Proof using Hg. intros Hu Hd. apply (used_live N g Hg) in Hu. by econstructor. Qed.
Lemma src_ne k : used N g k -> src g k <> dst g k.
Proof using Hg Hforest.
  intros Hu. pose proof (proj1 (used_iff N g Hg Hforest k) Hu) as [Hl (d & Hd)]. intros E. pose proof (src_dist k d Hu Hd) as H. rewrite E in H.
  destruct (live_facts N g Hg _ _ Hl) as (_ & _ & Hr & _). pose proof (dist_fun N g Hg Hforest _ _ Hd ltac:(lia) _ H). lia.
Qed.
Lemma conn_some k : used N g k -> exists c, g_conns g !! k = Some c /\ c_src c = src g k /\ c_dst c = dst g k /\ c_weight c = wgt k.
Proof using Hg.
  intros Hu. apply (used_live N g Hg) in Hu. destruct (live_facts N g Hg _ _ Hu) as (_ & _ & _ & Hk & _). destruct (lookup_lt_is_Some_2 _ _ Hk) as [c Hc].
  exists c. unfold src, dst, wgt. by rewrite Hc.
Qed.
Lemma put_add D s s1 s2 k x : put_cf k (-2) s = Some s1 -> forall s1', ok g s1' -> e_cf s1' = e_cf s1 -> e_val s1' = e_val s1 -> add_val real_num (dst g k) x s1' = Some s2 ->
  x = contrib V k -> inv D s -> used N g k -> todo s k -> dst g k ∈ D -> (g_input g <= src g k -> full s (src g k)) ->
  inv D s2 /\ e_cf s2 = <[k:=(-2)%Z]> (e_cf s) /\ e_nf s2 = e_nf s1'.
Proof using Hg Hforest.
  intros E1' s1' Ho Ec Ev E2 -> Hs Hu Ht HD Hsrc. unfold put_cf in E1'. apply bind_Some in E1' as (l & El & E1'). injection E1' as <-. apply wr_inv in El as [Hlt ->].
  cbn in Ec, Ev. unfold add_val in E2. apply bind_Some in E2 as (y & Ey & E2). unfold put_val in E2. apply bind_Some in E2 as (l & El & E2). injection E2 as <-.
  apply wr_inv in El as [Hlv ->]. cbn in *. unfold rd in Ey. rewrite Ev in *. split; [|done].
  eapply (inv_done D s _ k y); try done; [by apply src_ne|]. unfold ok in *. cbn. rewrite insert_length, <- Ev. rewrite Ev in *. done.
Qed.

Lemma frame_refl s e : frame s s e.
Proof. split; [done|]. done. Qed.
Lemma frame_trans a b c e : frame a b e -> frame b c e -> frame a c e.
Proof. intros (H1 & H2 & H3) (H4 & H5 & H6). split; [intros k d Hu Hd Hl; by rewrite (H4 k d), (H1 k d)|]. auto. Qed.
Lemma frame_less a b e e' : e' <= e -> frame a b e -> frame a b e'.
Proof.
  intros He (H1 & H2 & H3). split; [intros k d Hu Hd Hl; apply (H1 k d); [done|done|lia]|]. split; [done|]. intros v Hv. apply H3.
  destruct Hv as [|(d & ? & ?)]; [by left|right; exists d; split; [done|lia]].
Qed.
Lemma node_of v : v < n -> exists nd, g_nodes g !! v = Some nd /\ n_in nd = ins g v /\ n_out nd = outs g v.
Proof. intros Hv. destruct (lookup_lt_is_Some_2 _ _ Hv) as [nd En]. exists nd. unfold ins, outs. by rewrite En. Qed.
Lemma outs_src k v : k ∈ outs g v -> src g k = v.
Proof using Hg.
  unfold outs. destruct (g_nodes g !! v) as [nd|] eqn:En; [|intros H; by apply elem_of_nil in H]. destruct (ok_out _ _ Hg v nd En) as [_ H]. rewrite H. intros (c & Hc & E). unfold src. by rewrite Hc.
Qed.
Lemma used_outs k : used N g k -> k ∈ outs g (src g k).
Proof using Hg.
  intros Hu. destruct (conn_some k Hu) as (c & Hc & E & _). destruct (ok_conn _ _ Hg k c Hc) as (Hs & _). destruct (node_of (src g k) ltac:(lia)) as (nd & En & _ & <-).
  destruct (ok_out _ _ Hg _ nd En) as [_ H]. apply H. eauto.
Qed.
Lemma insert_nf_frame s s' i b e : e_cf s' = e_cf s -> e_nf s' = <[i:=b]> (e_nf s) -> (b = true \/ ~ (i < g_input g \/ exists d, dist g i d /\ d <= e)) -> i < length (e_nf s) -> frame s s' e.
Proof.
  intros Ec En Hb Hi. split; [intros; by rewrite Ec|]. split; [intros k; unfold done_; by rewrite Ec|]. intros v Hv H. rewrite En.
  destruct (decide (i = v)) as [<-|]; [|by rewrite list_lookup_insert_ne]. rewrite list_lookup_insert by done. destruct Hb as [->|Hb]; [done|]. by destruct Hb.
Qed.

Definition pull_ok fuel : Prop := forall s k D e s' b, compute real_num sig fuel g array (src g k) (Some (k, dst g k)) s = Some (s', b) ->
  inv D s -> used N g k -> todo s k -> dst g k ∈ D -> dist g (dst g k) e -> (forall v, v ∈ D -> exists d, dist g v d /\ d <= e) ->
  inv D s' /\ done_ s' k /\ b = true /\ frame s s' e.

(** the loop over the incoming connections of [head] *)
Lemma ins_loop fuel : pull_ok fuel -> forall s0 s' head e D (only : bool), dist g head e -> g_input g <= head ->
  each (fun s k => f ← rd (e_cf s) k;
          if (f =? -1)%Z then
            y ← rd (g_conns g) k; b ← rd (e_nf s) head; r ← compute real_num sig fuel g array (c_src y) (Some (k, head)) s;
            if (b : bool) then Some (fst r) else put_nf head (snd r) (fst r)
          else Some s) (ins g head) s0 = Some s' ->
  inv D s0 -> head ∈ D -> (forall v, v ∈ D -> exists d, dist g v d /\ d <= e) ->
  (e_nf s0 !! head = Some true \/ (live g head <> [] /\ forall k, k ∈ live g head -> todo s0 k)) ->
  inv D s' /\ full s' head /\ e_nf s' !! head = Some true /\
  (forall k' d, used N g k' -> dist g (dst g k') d -> d < e -> e_cf s' !! k' = e_cf s0 !! k') /\ (forall k, done_ s0 k -> done_ s' k) /\
  (forall v, (v < g_input g \/ exists d, dist g v d /\ d < e) -> e_nf s0 !! v = Some true -> e_nf s' !! v = Some true).
Proof using Hg Hforest.
  intros Hpull s0 s' head e D only Hd Hi E Hs HD HDd Hnf. pose proof (dist_lt N g Hg head e Hd) as Hhn.
  assert (H : inv D s' /\ (forall k, k ∈ ins g head -> k ∈ live g head -> done_ s' k) /\
    (e_nf s' !! head = Some true \/ ((forall k, k ∈ ins g head -> k ∉ live g head) /\ s' = s0)) /\
    (forall k' d, used N g k' -> dist g (dst g k') d -> d < e -> e_cf s' !! k' = e_cf s0 !! k') /\ (forall k, done_ s0 k -> done_ s' k) /\
    (forall v, (v < g_input g \/ exists d, dist g v d /\ d < e) -> e_nf s0 !! v = Some true -> e_nf s' !! v = Some true)).
  { refine (each_pre _ (fun l1 q => inv D q /\ (forall k, k ∈ l1 -> k ∈ live g head -> done_ q k) /\
      (e_nf q !! head = Some true \/ ((forall k, k ∈ l1 -> k ∉ live g head) /\ q = s0)) /\
      (forall k' d, used N g k' -> dist g (dst g k') d -> d < e -> e_cf q !! k' = e_cf s0 !! k') /\ (forall k, done_ s0 k -> done_ q k) /\
      (forall v, (v < g_input g \/ exists d, dist g v d /\ d < e) -> e_nf s0 !! v = Some true -> e_nf q !! v = Some true)) _ _ _ E _ _).
    - split; [done|]. split; [intros k Hk; by apply elem_of_nil in Hk|]. split; [right; split; [intros k Hk; by apply elem_of_nil in Hk|done]|]. done.
    - intros l1 k l2 q q' El Eq (Hq & Hl1 & Hn & Hf1 & Hf2 & Hf3). cbv beta in Eq.
      assert (Hk : k ∈ ins g head) by (rewrite El; apply elem_of_app; right; left).
      assert (Hlive : used N g k <-> k ∈ live g head).
      { rewrite (used_iff N g Hg Hforest). apply (ins_iff k head Hhn) in Hk as [_ ->]. split; [by intros [? _]|]. eauto. }
      apply bind_Some in Eq as (f & Ef & Eq). unfold rd in Ef. destruct (f =? -1)%Z eqn:Ef1.
      + apply Z.eqb_eq in Ef1. subst f. assert (Hu : used N g k) by (apply (iv_cf _ _ Hq); by left). pose proof (proj1 Hlive Hu) as Hkl.
        destruct (conn_some k Hu) as (c & Hc & Es & Edst & _). assert (Ed : dst g k = head) by (by apply (ins_iff k head Hhn)).
        unfold rd in Eq. rewrite Hc in Eq. cbn [mbind option_bind] in Eq. apply bind_Some in Eq as (b & Eb & Eq). apply bind_Some in Eq as ([q1 r1] & Er & Eq). cbn [fst snd] in Eq.
        rewrite Es, <- Ed in Er. destruct (Hpull q k D e q1 r1 Er Hq Hu Ef ltac:(by rewrite Ed) ltac:(by rewrite Ed) HDd) as (Hq1 & Hdk & -> & Hfr).
        destruct Hfr as (F1 & F2 & F3).
        assert (G : inv D q' /\ e_cf q' = e_cf q1 /\ e_nf q' !! head = Some true /\ (forall v, v <> head -> e_nf q' !! v = e_nf q1 !! v)).
        { destruct b.
          - injection Eq as <-. split; [done|]. split; [done|]. split; [|done]. apply F3; [right; exists e; split; [done|lia]|done].
          - apply (put_nf_inv D) in Eq as (H1 & H2 & _ & H4); [|done|done]. split; [done|]. split; [done|]. rewrite H4. split; [|intros v Hv; by rewrite list_lookup_insert_ne].
            apply list_lookup_insert. destruct (iv_ok _ _ Hq1) as (_ & _ & -> & _). done. }
        destruct G as (G1 & G2 & G3 & G4). split; [done|]. unfold done_ in *. rewrite G2. split; [|split; [by left|split; [|split]]].
        * intros j Hj Hjl. apply elem_of_app in Hj as [Hj|Hj]; [apply F2; by apply Hl1|]. apply elem_of_list_singleton in Hj as ->. done.
        * intros k' d Hu' Hd' Hlt. rewrite (F1 k' d) by done. by apply (Hf1 k' d).
        * intros j Hj. apply F2. by apply Hf2.
        * intros v Hv Hv0. destruct (decide (v = head)) as [->|Hvh]; [done|]. rewrite (G4 v Hvh). apply F3; [|by apply Hf3].
          destruct Hv as [|(d & ? & ?)]; [by left|right; exists d; split; [done|lia]].
      + injection Eq as <-. apply Z.eqb_neq in Ef1. split; [done|]. split; [|split; [|done]].
        * intros j Hj Hjl. apply elem_of_app in Hj as [Hj|Hj]; [by apply Hl1|]. apply elem_of_list_singleton in Hj as ->.
          assert (Hu : used N g k) by (by apply Hlive). apply (iv_cf _ _ Hq) in Hu as [Hu|Hu]; [|done]. unfold todo in Hu. congruence.
        * destruct Hn as [Hn|[Hn ->]]; [by left|]. destruct Hnf as [Hnf|[_ Hnf]]; [by left|]. right. split; [|done].
          intros j Hj. apply elem_of_app in Hj as [Hj|Hj]; [by apply Hn|]. apply elem_of_list_singleton in Hj as ->. intros Hjl. apply Hnf in Hjl. unfold todo in Hjl. congruence. }
  destruct H as (H1 & H2 & H3 & H4). split; [done|].
  assert (Hli : forall k, k ∈ live g head -> k ∈ ins g head) by (intros k Hk; unfold live in Hk; by apply elem_of_list_filter in Hk as [_ ?]).
  split; [intros k Hk; apply H2; auto|]. split; [|done]. destruct H3 as [H3|[H3 ->]]; [done|]. destruct Hnf as [|[Hne _]]; [done|].
  destruct (live g head) as [|k l] eqn:El; [done|]. exfalso. apply (H3 k); [|left]. apply Hli. left.
Qed.

(** a node is asked for its contribution to the connection k *)
Lemma pull fuel : pull_ok fuel.
Proof using Hg Hforest Hfed HV Hmark.
  induction fuel as [|fuel IH]; intros s k D e s' b E Hs Hu Ht HD He HDd; [done|]. cbn [compute] in E.
  pose proof (used_live N g Hg k Hu) as Hl. destruct (live_facts N g Hg k _ Hl) as (_ & Hsn & Hr & Hkn & _). destruct (conn_some k Hu) as (c & Hc & Es & Ed & Ew).
  destruct (num_lt N g Hg _ Hsn) as (En & Hnum & Hin). rewrite En in E. cbn [mbind option_bind] in E. set (head := src g k) in *. set (inp := bool_decide (nmb g head < g_input g)) in *.
  apply bind_Some in E as (s1 & E1' & E). apply (put_nf_inv D) in E1' as (Hs1 & Ec1 & Ev1 & En1); [|done|done].
  assert (Lnf : length (e_nf s) = n) by (by destruct (iv_ok _ _ Hs) as (_ & _ & ? & _)).
  assert (Ht1 : todo s1 k) by (unfold todo; by rewrite Ec1). pose proof (src_dist k e Hu He) as Hdh. fold head in Hdh.
  destruct inp eqn:Einp; cbn [orb] in En1.
  - (* an input *)
    apply bool_decide_eq_true in Einp. apply Hin in Einp. unfold rd in E. rewrite Hc in E. cbn [mbind option_bind] in E. rewrite (iv_inp _ _ Hs1 head Einp) in E. cbn [mbind option_bind] in E.
    apply bind_Some in E as (st & Est & E). apply bind_Some in Est as (s2 & E2 & Est). apply bind_Some in Est as (s3 & E3 & Est). injection Est as <-. injection E as <- <-.
    assert (Ho2 : ok g s2). { destruct (put_cf_ok g k (-2)%Z s1 (iv_ok _ _ Hs1) Hkn ltac:(done)) as (z & Ez & ? & _). congruence. }
    destruct (put_add D s1 s2 s3 k (V head * c_weight c)%R E2 s2 Ho2 eq_refl eq_refl E3) as (Hs3 & Ec3 & En3); try done.
    { unfold contrib, signal_. fold head. rewrite decide_True by done. by rewrite Ew. }
    { intros H. lia. }
    assert (E2n : e_nf s2 = e_nf s1). { unfold put_cf in E2. apply bind_Some in E2 as (l & _ & E2). by injection E2 as <-. }
    split; [done|]. split; [unfold done_; rewrite Ec3; apply list_lookup_insert; destruct (iv_ok _ _ Hs1) as (_ & _ & _ & ->); done|]. split; [done|].
    split; [|split].
    + intros k' d Hu' Hd' Hlt. rewrite Ec3, list_lookup_insert_ne, Ec1; [done|]. intros <-. pose proof (dist_fun N g Hg Hforest _ _ He ltac:(lia) _ Hd'). lia.
    + intros k' Hk'. unfold done_ in *. rewrite Ec3. destruct (decide (k = k')) as [<-|]; [|rewrite list_lookup_insert_ne by done; by rewrite Ec1].
      apply list_lookup_insert. destruct (iv_ok _ _ Hs1) as (_ & _ & _ & ->); done.
    + intros v _ Hv. rewrite En3, E2n, En1. destruct (decide (head = v)) as [<-|]; [apply list_lookup_insert; lia|by rewrite list_lookup_insert_ne].
  - (* a hidden node *)
    apply bool_decide_eq_false in Einp. assert (Hhi : g_input g <= head) by lia.
    apply bind_Some in E as (st & Est & E). apply bind_Some in Est as (a & Ea & Est).
    destruct a. { exfalso. unfold rd in Ea. apply (Hmark head Hsn) in Ea. lia. } injection Est as <-.
    destruct (node_of head Hsn) as (nd & End & Eni & Eno). rewrite (End : rd (g_nodes g) head = Some nd) in E. cbn [mbind option_bind] in E. rewrite Eni, Eno in E.
    apply bind_Some in E as (s2 & E2 & E).
    assert (HnD : head ∉ D). { intros H. destruct (HDd head H) as (d & Hd & Hle). pose proof (dist_fun N g Hg Hforest _ _ Hdh Hhi _ Hd). lia. }
    assert (Hnout : g_input g + g_output g <= head). { pose proof (src_not_out N g Hg k _ Hl). fold head in H. lia. }
    destruct (ins_loop fuel IH s1 s2 head (S e) (head :: D) true Hdh Hhi E2) as (Hs2 & Hf2 & Hn2 & F1 & F2 & F3).
    { apply (inv_weaken D); [done|]. intros x Hx. by right. }
    { left. }
    { intros v Hv. apply elem_of_cons in Hv as [->|Hv]; [exists (S e); split; [done|lia]|]. destruct (HDd v Hv) as (d & ? & ?). exists d. split; [done|lia]. }
    { right. split; [by apply (Hfed head (S e))|]. intros j Hj. assert (Huj : used N g j).
      { apply (used_iff N g Hg Hforest). destruct (live_facts N g Hg j head Hj) as (-> & _). eauto. }
      apply (iv_cf _ _ Hs1) in Huj as [|Hdone]; [done|]. exfalso.
      pose proof (iv_out _ _ Hs1 head j k HnD Hhi Hj Hdone Hu eq_refl) as Hk. unfold done_, todo in *. congruence. }
    apply bind_Some in E as (s5 & E5 & E). unfold rd in E5. rewrite Hn2 in E5. cbn [mbind option_bind] in E5. rewrite Hc in E5. cbn [mbind option_bind] in E5.
    apply bind_Some in E5 as (s3 & E3 & E5). apply bind_Some in E5 as (s4 & E4 & E5).
    assert (Ho3 : ok g s3). { destruct (put_cf_ok g k (-2)%Z s2 (iv_ok _ _ Hs2) Hkn ltac:(done)) as (z & Ez & ? & _). congruence. }
    destruct (put_nf_ok' g (c_dst c) true s3 Ho3 ltac:(rewrite Ed; lia)) as (z & Ez & Ho4 & Ec4 & Ev4 & _). rewrite E4 in Ez. injection Ez as <-.
    assert (En4 : e_nf s4 = <[c_dst c := true]> (e_nf s3)). { unfold put_nf in E4. apply bind_Some in E4 as (l & El & E4). injection E4 as <-. by apply wr_inv in El as [_ ->]. }
    assert (E3n : e_nf s3 = e_nf s2 /\ e_val s3 = e_val s2). { unfold put_cf in E3. apply bind_Some in E3 as (l & _ & E3). by injection E3 as <-. }
    destruct E3n as [E3n E3v]. rewrite Ev4, E3v, (full_val (head :: D) s2 head (S e) Hs2 Hdh Hhi Hf2) in E5. cbn [mbind option_bind] in E5.
    assert (Ht2 : todo s2 k). { unfold todo. rewrite (F1 k e Hu He) by lia. exact Ht1. }
    destruct (put_add (head :: D) s2 s3 s5 k (sig (V head) * c_weight c)%R E3 s4 Ho4 Ec4 Ev4 E5) as (Hs5 & Ec5 & En5); try done.
    { unfold contrib, signal_. fold head. rewrite decide_False by lia. by rewrite Ew. }
    { by right. }
    assert (Hd5 : done_ s5 k). { unfold done_. rewrite Ec5. apply list_lookup_insert. destruct (iv_ok _ _ Hs2) as (_ & _ & _ & ->); done. }
    assert (Houts : forall j, used N g j -> src g j = head -> done_ s5 j).
    { intros j Hj Ej. assert (k = j) as <-; [|done]. apply Hforest; [by apply (used_live N g Hg)|by apply (used_live N g Hg)|done|done]. }
    apply bind_Some in E as (s6 & E6 & E).
    assert (s6 = s5) as ->.
    { refine (each_pre _ (fun _ q => q = s5) _ _ _ E6 eq_refl _). intros l1 j l2 q q' El Eq ->. cbv beta in Eq. apply bind_Some in Eq as (f & Ef & Eq). unfold rd in Ef.
      destruct (f =? -1)%Z eqn:Ef1; [|by injection Eq as <-]. apply Z.eqb_eq in Ef1. subst f. exfalso.
      assert (Huj : used N g j) by (apply (iv_cf _ _ Hs5); by left). assert (Ej : src g j = head) by (apply outs_src; rewrite El; apply elem_of_app; right; left).
      pose proof (Houts j Huj Ej) as H. unfold done_ in H. congruence. }
    apply bind_Some in E as (b' & Eb' & E). injection E as <- <-.
    assert (Hhd : c_dst c <> head). { rewrite Ed. intros H. by apply (src_ne k Hu). }
    assert (Hb' : b' = true). { unfold rd in Eb'. rewrite En5, En4, E3n, list_lookup_insert_ne in Eb' by done. congruence. }
    split; [by apply (inv_drop D head)|]. split; [done|]. split; [done|]. split; [|split].
    + intros k' d Hu' Hd' Hlt. rewrite Ec5, list_lookup_insert_ne.
      * rewrite (F1 k' d) by (done || lia). by rewrite Ec1.
      * intros <-. pose proof (dist_fun N g Hg Hforest _ _ He ltac:(lia) _ Hd'). lia.
    + intros k' Hk'. unfold done_ in *. rewrite Ec5. destruct (decide (k = k')) as [<-|]; [|rewrite list_lookup_insert_ne by done; apply F2; by rewrite Ec1].
      apply list_lookup_insert. destruct (iv_ok _ _ Hs2) as (_ & _ & _ & ->); done.
    + intros v Hv Hvt. assert (Hvh : v <> head).
      { intros ->. destruct Hv as [?|(d & Hd & Hle)]; [lia|]. pose proof (dist_fun N g Hg Hforest _ _ Hdh Hhi _ Hd). lia. }
      rewrite En5, En4, E3n. destruct (decide (c_dst c = v)) as [<-|Hne].
      * apply list_lookup_insert. destruct (iv_ok _ _ Hs2) as (_ & _ & -> & _). rewrite Ed. lia.
      * rewrite list_lookup_insert_ne by done. apply F3; [|rewrite En1; by rewrite list_lookup_insert_ne]. destruct Hv as [?|(d & ? & ?)]; [by left|right; exists d; split; [done|lia]].
Qed.

Lemma inv_input D v s : inv (v :: D) s -> v < g_input g -> inv D s.
Proof.
  intros [H1 H2 H3 H4 H5 H6] Hd. split; try done. intros w k' k Hw Hi Hk' Hd' Hu E.
  apply (H6 w k' k); try done. intros H. apply elem_of_cons in H as [->|]; [lia|done].
Qed.
Definition push_ok fuel : Prop := forall s head s' b, compute real_num sig fuel g array head None s = Some (s', b) ->
  inv [head] s -> head < n -> (head < g_input g \/ exists d, dist g head d) ->
  inv [] s' /\ (forall k, done_ s k -> done_ s' k) /\ (forall k, used N g k -> src g k = head -> done_ s' k) /\ (forall k, g_input g <= head -> k ∈ live g head -> done_ s' k) /\
  (forall v, v < g_input g -> e_nf s !! v = Some true -> e_nf s' !! v = Some true).

Lemma push fuel : push_ok fuel.
Proof using Hg Hforest Hfed HV Hmark.
  induction fuel as [|fuel IH]; intros s head s' b E Hs Hn Hhd; [done|]. cbn [compute] in E.
  destruct (num_lt N g Hg _ Hn) as (En & Hnum & Hin). rewrite En in E. cbn [mbind option_bind] in E. set (inp := bool_decide (nmb g head < g_input g)) in *.
  apply bind_Some in E as (s1 & E1' & E). apply (put_nf_inv [head]) in E1' as (Hs1 & Ec1 & Ev1 & En1); [|done|done].
  assert (Lnf : length (e_nf s) = n) by (by destruct (iv_ok _ _ Hs) as (_ & _ & ? & _)).
  replace (inp || true) with true in En1 by (by destruct inp).
  assert (Hn1 : e_nf s1 !! head = Some true) by (rewrite En1; apply list_lookup_insert; lia).
  assert (Hk1 : forall v, v < g_input g -> e_nf s !! v = Some true -> e_nf s1 !! v = Some true).
  { intros v _ Hv. rewrite En1. destruct (decide (head = v)) as [<-|]; [apply list_lookup_insert; lia|by rewrite list_lookup_insert_ne]. }
  assert (Hd1 : forall k, done_ s k -> done_ s1 k) by (intros k; unfold done_; by rewrite Ec1).
  destruct (node_of head Hn) as (nd & End & Eni & Eno). rewrite (End : rd (g_nodes g) head = Some nd) in E. cbn [mbind option_bind] in E. rewrite Eni, Eno in E.
  apply bind_Some in E as (s2 & E2 & E). apply bind_Some in E as (s3 & E3 & E). apply bind_Some in E as (bb & Ebb & E). injection E as <- <-.
  (* one step of the loop over the outgoing connections *)
  assert (STEP : forall q q' k x, inv [head] q -> e_nf q !! head = Some true -> todo q k -> src g k = head -> (g_input g <= head -> full q head) ->
    e_val q !! head = Some x -> x = V head ->
    (s4 ← put_cf k (-2) q; b ← rd (e_nf s4) head;
     if (b : bool) then y ← rd (g_conns g) k; x ← rd (e_val s4) head;
       s5 ← add_val real_num (c_dst y) (n_mul real_num (if inp then x else sig x) (c_weight y)) s4; r ← compute real_num sig fuel g array (c_dst y) None s5; Some (fst r)
     else Some s4) = Some q' ->
    inv [] q' /\ done_ q' k /\ (forall j, done_ q j -> done_ q' j) /\ (forall v, v < g_input g -> e_nf q !! v = Some true -> e_nf q' !! v = Some true) /\
    (g_input g <= head -> forall j, used N g j -> src g j = head -> done_ q' j)).
  { intros q q' k x Hq Hnf Ht Es Hf Hx Ex Eq. assert (Hu : used N g k) by (apply (iv_cf _ _ Hq); by left).
    destruct (proj1 (used_iff N g Hg Hforest k) Hu) as [Hl (e & He)]. destruct (live_facts N g Hg k _ Hl) as (_ & _ & Hr & Hkn & _). destruct (conn_some k Hu) as (c & Hc & Ecs & Ecd & Ew).
    apply bind_Some in Eq as (s4 & E4 & Eq).
    assert (Ho4 : ok g s4). { destruct (put_cf_ok g k (-2)%Z q (iv_ok _ _ Hq) Hkn ltac:(done)) as (z & Ez & ? & _). congruence. }
    assert (E4n : e_nf s4 = e_nf q /\ e_val s4 = e_val q). { unfold put_cf in E4. apply bind_Some in E4 as (l & _ & E4). by injection E4 as <-. }
    destruct E4n as [E4n E4v]. rewrite E4n, (Hnf : rd (e_nf q) head = _) in Eq. cbn [mbind option_bind] in Eq. rewrite (Hc : rd (g_conns g) k = _) in Eq. cbn [mbind option_bind] in Eq.
    rewrite E4v, (Hx : rd (e_val q) head = _) in Eq. cbn [mbind option_bind] in Eq. apply bind_Some in Eq as (s5 & E5 & Eq). apply bind_Some in Eq as ([s6 r] & E6 & Eq). injection Eq as <-. cbn [fst].
    rewrite Ecd in E5, E6.
    destruct (put_add [head; dst g k] q s4 s5 k _ E4 s4 Ho4 eq_refl eq_refl E5) as (Hs5 & Ec5 & En5); try done.
    { unfold contrib, signal_. rewrite Es, <- Ew, Ex. cbn [n_mul real_num]. unfold inp. destruct (decide (head < g_input g)) as [H|H].
      - rewrite bool_decide_eq_true_2 by (by apply Hin). done. - rewrite bool_decide_eq_false_2 by lia. done. }
    { apply (inv_weaken [head]); [done|]. intros y Hy. apply elem_of_list_singleton in Hy as ->. left. }
    { right. left. }
    { by rewrite Es. }
    assert (Hlk : k < length (e_cf q)) by (destruct (iv_ok _ _ Hq) as (_ & _ & _ & ->); done).
    assert (Hd5 : done_ s5 k) by (unfold done_; rewrite Ec5; by apply list_lookup_insert).
    assert (Hp5 : forall j, done_ q j -> done_ s5 j). { intros j Hj. unfold done_ in *. rewrite Ec5. destruct (decide (k = j)) as [<-|]; [by apply list_lookup_insert|by rewrite list_lookup_insert_ne]. }
    assert (Hone : g_input g <= head -> forall j, used N g j -> src g j = head -> done_ s5 j).
    { intros Hi j Hj Ej. assert (k = j) as <-; [|done]. apply Hforest; [by apply (used_live N g Hg)|by apply (used_live N g Hg)|congruence|lia]. }
    assert (Hs5' : inv [dst g k] s5). { destruct (le_lt_dec (g_input g) head) as [Hi|Hi]; [apply (inv_drop _ head); auto|by apply (inv_input _ head)]. }
    destruct (IH s5 (dst g k) s6 r E6 Hs5' ltac:(lia) ltac:(by right; exists e)) as (H1 & H2 & _ & _ & H4). split; [done|]. split; [auto|]. split; [auto|]. split; [|auto].
    intros v Hv Hv'. apply H4; [done|]. by rewrite En5, E4n. }
  destruct (le_lt_dec (g_input g) head) as [Hi|Hi].
  - (* not an input *)
    destruct Hhd as [?|(e & He)]; [lia|]. destruct (ins_loop fuel (pull fuel) s1 s2 head e [head] true He Hi E2 Hs1) as (Hs2 & Hf2 & Hn2 & _ & F2 & F3).
    { left. } { intros v Hv. apply elem_of_list_singleton in Hv as ->. exists e. split; [done|lia]. } { by left. }
    pose proof (full_val [head] s2 head e Hs2 He Hi Hf2) as Hv2.
    assert (H : (forall k, done_ s2 k -> done_ s3 k) /\ (forall v, v < g_input g -> e_nf s2 !! v = Some true -> e_nf s3 !! v = Some true) /\
      ((s3 = s2 /\ forall k, k ∈ outs g head -> used N g k -> done_ s2 k) \/ inv [] s3 /\ forall k, used N g k -> src g k = head -> done_ s3 k)).
    { refine (each_pre _ (fun l1 q => (forall k, done_ s2 k -> done_ q k) /\ (forall v, v < g_input g -> e_nf s2 !! v = Some true -> e_nf q !! v = Some true) /\
        ((q = s2 /\ forall k, k ∈ l1 -> used N g k -> done_ s2 k) \/ inv [] q /\ forall k, used N g k -> src g k = head -> done_ q k)) _ _ _ E3 _ _).
      - split; [done|]. split; [done|]. left. split; [done|]. intros k Hk. by apply elem_of_nil in Hk.
      - intros l1 k l2 q q' El Eq (Q1 & Q2 & Q3). cbv beta in Eq. assert (Ek : src g k = head) by (apply outs_src; rewrite El; apply elem_of_app; right; left).
        apply bind_Some in Eq as (f & Ef & Eq). unfold rd in Ef. destruct (f =? -1)%Z eqn:Ef1.
        + apply Z.eqb_eq in Ef1. subst f. destruct Q3 as [[-> Q3]|[Q3 Q4]].
          * destruct (STEP s2 q' k (V head) Hs2 Hn2 Ef Ek ltac:(done) Hv2 eq_refl Eq) as (R1' & R2' & R3' & R4' & R5'). split; [done|]. split; [done|]. right. auto.
          * exfalso. assert (Hu : used N g k) by (apply (iv_cf _ _ Q3); by left). pose proof (Q4 k Hu Ek) as H. unfold done_ in H. congruence.
        + injection Eq as <-. apply Z.eqb_neq in Ef1. split; [done|]. split; [done|]. destruct Q3 as [[-> Q3]|Q3]; [left|by right]. split; [done|].
          intros j Hj Hu. apply elem_of_app in Hj as [Hj|Hj]; [by apply Q3|]. apply elem_of_list_singleton in Hj as ->.
          apply (iv_cf _ _ Hs2) in Hu as [Hu|Hu]; [|done]. unfold todo in Hu. congruence. }
    destruct H as (H1 & H2 & H3). assert (H : inv [] s3 /\ forall k, used N g k -> src g k = head -> done_ s3 k).
    { destruct H3 as [[-> H3]|H3]; [|done]. assert (Q : forall k, used N g k -> src g k = head -> done_ s2 k) by (intros k Hu <-; apply H3; [by apply used_outs|done]). split; [|done]. by apply (inv_drop _ head). }
    destruct H as [Ha Hb]. split; [done|]. split; [auto|]. split; [done|]. split; [intros k _ Hk; apply H1; by apply Hf2|]. intros v Hv Hv'. apply H2; [done|]. apply F3; [by left|auto].
  - (* an input *)
    assert (s2 = s1) as ->.
    { refine (each_pre _ (fun _ q => q = s1) _ _ _ E2 eq_refl _). intros l1 j l2 q q' El Eq ->. cbv beta in Eq. apply bind_Some in Eq as (f & Ef & Eq). unfold rd in Ef.
      destruct (f =? -1)%Z eqn:Ef1; [|by injection Eq as <-]. apply Z.eqb_eq in Ef1. subst f. exfalso.
      assert (Huj : used N g j) by (apply (iv_cf _ _ Hs1); by left). apply (used_live N g Hg) in Huj. destruct (live_facts N g Hg _ _ Huj) as (_ & _ & Hr & _).
      assert (Hj : j ∈ ins g head) by (rewrite El; apply elem_of_app; right; left). apply (ins_iff j head Hn) in Hj as [_ Hj]. lia. }
    pose proof (inv_input _ _ _ Hs1 Hi) as Hs1'.
    assert (H : inv [] s3 /\ (forall k, done_ s1 k -> done_ s3 k) /\ (forall k, k ∈ outs g head -> used N g k -> done_ s3 k) /\ (forall v, v < g_input g -> e_nf s1 !! v = Some true -> e_nf s3 !! v = Some true)).
    { refine (each_pre _ (fun l1 q => inv [] q /\ (forall k, done_ s1 k -> done_ q k) /\ (forall k, k ∈ l1 -> used N g k -> done_ q k) /\ (forall v, v < g_input g -> e_nf s1 !! v = Some true -> e_nf q !! v = Some true)) _ _ _ E3 _ _).
      - split; [done|]. split; [done|]. split; [|done]. intros k Hk. by apply elem_of_nil in Hk.
      - intros l1 k l2 q q' El Eq (Q1 & Q2 & Q3 & Q4). cbv beta in Eq. assert (Ek : src g k = head) by (apply outs_src; rewrite El; apply elem_of_app; right; left).
        apply bind_Some in Eq as (f & Ef & Eq). unfold rd in Ef. destruct (f =? -1)%Z eqn:Ef1.
        + apply Z.eqb_eq in Ef1. subst f.
          destruct (STEP q q' k (V head) ltac:(apply (inv_weaken []); [done|]; intros y Hy; by apply elem_of_nil in Hy) (Q4 head Hi Hn1) Ef Ek ltac:(lia) (iv_inp _ _ Q1 head Hi) eq_refl Eq) as (R1' & R2' & R3' & R4' & R5').
          split; [done|]. split; [auto|]. split; [|auto]. intros j Hj Hu. apply elem_of_app in Hj as [Hj|Hj]; [auto|]. by apply elem_of_list_singleton in Hj as ->.
        + injection Eq as <-. apply Z.eqb_neq in Ef1. split; [done|]. split; [done|]. split; [|done].
          intros j Hj Hu. apply elem_of_app in Hj as [Hj|Hj]; [by apply Q3|]. apply elem_of_list_singleton in Hj as ->.
          apply (iv_cf _ _ Q1) in Hu as [Hu|Hu]; [|done]. unfold todo in Hu. congruence. }
    destruct H as (H1 & H2 & H3 & H4). split; [done|]. split; [auto|]. split; [intros k Hu <-; apply H3; [by apply used_outs|done]|]. split; [lia|]. auto.
Qed.
End values.
