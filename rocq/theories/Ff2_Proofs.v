From Verif Require Import Base BaseLemmas Neat_Model Neat_Spec Ff_Model Ff_Proofs.
Open Scope nat_scope.

(** * Loops *)
Lemma each_inv {A S} (f : S -> A -> option S) (P : S -> Prop) l : forall s,
  P s -> (forall x s, x ∈ l -> P s -> exists s', f s x = Some s' /\ P s') -> exists s', each f l s = Some s' /\ P s'.
Proof.
  induction l as [|x l IH]; intros s Hs H; [by exists s|]. cbn [each]. destruct (H x s ltac:(left) Hs) as (s1 & E & H1). rewrite E. cbn [mbind option_bind].
  apply IH; [done|]. intros y t Hy. apply H. by right.
Qed.
Lemma each_mono {A S} (f f' : S -> A -> option S) l : (forall s x r, f s x = Some r -> f' s x = Some r) -> forall s r, each f l s = Some r -> each f' l s = Some r.
Proof.
  intros H. induction l as [|x l IH]; intros s r E; [done|]. cbn [each] in *. apply bind_Some in E as (s1 & E1' & E). rewrite (H _ _ _ E1'). cbn. by apply IH.
Qed.
Lemma for_mono {S} (f f' : nat -> S -> option S) c : (forall i s r, f i s = Some r -> f' i s = Some r) -> forall i s r, for_loop c i f s = Some r -> for_loop c i f' s = Some r.
Proof.
  intros H. induction c as [|c IH]; intros i s r E; [done|]. cbn [for_loop] in *. apply bind_Some in E as (s1 & E1' & E). rewrite (H _ _ _ E1'). cbn. by apply IH.
Qed.
Lemma bind_mono {A B} (x x' : option A) (f f' : A -> option B) r :
  (x ≫= f) = Some r -> (forall a, x = Some a -> x' = Some a) -> (forall a, f a = Some r -> f' a = Some r) -> (x' ≫= f') = Some r.
Proof. intros E H1 H2. apply bind_Some in E as (a & Ea & E). rewrite (H1 a Ea). cbn. by apply H2. Qed.

(** * Paths *)
Section paths.
Context {F : Type} (N : nat) (g : genome F) (Hg : okg N g).

Inductive bpath : list bool -> nat -> path -> Prop :=
| bp_in m h : h < g_input g -> bpath m h ([h], [], 0%Z)
| bp_loop m h : ~ h < g_input g -> m !! nmb g h = Some true -> bpath m h ([h], [], 1%Z)
| bp_end m h : ~ h < g_input g -> m !! nmb g h <> Some true -> live g h = [] -> bpath m h ([h], [], (-1)%Z)
| bp_step m h k p : ~ h < g_input g -> m !! nmb g h <> Some true -> k ∈ live g h -> bpath (<[nmb g h := true]> m) (src g k) p -> bpath m h (ext h k p).

Lemma live_in k h : k ∈ live g h <-> exists c, g_conns g !! k = Some c /\ c_flag c = true /\ c_dst c = h /\ h < length (g_nodes g).
Proof using Hg.
  unfold live. rewrite elem_of_list_filter. unfold on, ins. split.
  - intros [H1 H2]. destruct (g_nodes g !! h) as [n|] eqn:En; [|by apply elem_of_nil in H2]. destruct (ok_in _ _ Hg h n En) as [_ Hin].
    apply Hin in H2 as (c & Hc & Hd). rewrite Hc in H1. exists c. repeat split; [done| |done|by eapply lookup_lt_Some]. by destruct (c_flag c).
  - intros (c & Hc & Hf & Hd & Hh). rewrite Hc, Hf. split; [done|]. destruct (lookup_lt_is_Some_2 _ _ Hh) as [n En]. rewrite En.
    destruct (ok_in _ _ Hg h n En) as [_ Hin]. apply Hin. eauto.
Qed.
Lemma live_facts k h : k ∈ live g h -> dst g k = h /\ src g k < length (g_nodes g) /\ g_input g <= h < length (g_nodes g) /\ k < length (g_conns g) /\ on g k = true.
Proof using Hg.
  intros H. apply live_in in H as (c & Hc & Hf & Hd & Hh). destruct (ok_conn _ _ Hg k c Hc) as (H1 & H2 & H3). unfold dst, src, on. rewrite Hc. subst h.
  repeat split; [done|lia..| |done]. by eapply lookup_lt_Some.
Qed.
Lemma num_inj i j : i < length (g_nodes g) -> j < length (g_nodes g) -> nmb g i = nmb g j -> i = j.
Proof using Hg.
  intros Hi Hj. destruct (ok_num _ _ Hg i Hi) as (p & Ep & _). destruct (ok_num _ _ Hg j Hj) as (q & Eq & _). unfold nmb. rewrite Ep, Eq. cbn. intros ->.
  by eapply (ok_inj _ _ Hg).
Qed.
Lemma num_lt i : i < length (g_nodes g) -> number g i = Some (nmb g i) /\ nmb g i < N /\ (nmb g i < g_input g <-> i < g_input g).
Proof using Hg. intros Hi. destruct (ok_num _ _ Hg i Hi) as (p & Ep & ?). unfold nmb. rewrite Ep. cbn. tauto. Qed.

Lemma paths_iff fuel : forall m h p, length m = N -> h < length (g_nodes g) -> falses m < fuel -> p ∈ paths fuel g m h <-> bpath m h p.
Proof using Hg.
  induction fuel as [|fuel IH]; intros m h p Hm Hh Hf; [lia|]. cbn [paths]. destruct (num_lt h Hh) as (_ & Hn & _).
  destruct (decide (h < g_input g)) as [D|D].
  { rewrite elem_of_list_singleton. split; [intros ->; by constructor|]. inversion 1; subst; done. }
  destruct (lookup_lt_is_Some_2 m (nmb g h) ltac:(lia)) as [b Eb]. rewrite Eb. cbn [default id]. destruct b.
  { rewrite elem_of_list_singleton. split; [intros ->; by constructor|]. inversion 1; subst; try done; congruence. }
  destruct (live g h) as [|k0 ks] eqn:El.
  { rewrite elem_of_list_singleton. split; [intros ->; constructor; [done|congruence|done]|]. inversion 1; subst; try done; try congruence.
    rewrite El in *. by match goal with H : _ ∈ [] |- _ => apply elem_of_nil in H end. }
  rewrite <- El. rewrite elem_of_list_bind.
  assert (Hq : forall k, k ∈ live g h -> forall q, q ∈ paths fuel g (<[nmb g h:=true]> m) (src g k) <-> bpath (<[nmb g h:=true]> m) (src g k) q).
  { intros k Hk q. destruct (live_facts k h Hk) as (_ & ? & _). apply IH; [by rewrite insert_length|done|]. pose proof (falses_insert m _ Eb). lia. }
  split.
  - intros (k & Hp & Hk). apply elem_of_list_fmap in Hp as (q & -> & Hp). apply Hq in Hp; [|done]. econstructor; [done|congruence|done|done].
  - inversion 1; subst; try done; try congruence. exists k. split; [|done]. apply elem_of_list_fmap. exists p0. split; [done|]. by apply Hq.
Qed.

(** the nodes of a path *)
Lemma bpath_nodes m h p : bpath m h p -> h < length (g_nodes g) ->
  length p.1.1 = S (length p.1.2) /\ Forall (fun x => x < length (g_nodes g)) p.1.1 /\ Forall (fun k => k < length (g_conns g)) p.1.2 /\ p.1.1 !! 0 = Some h.
Proof using Hg.
  induction 1 as [m h|m h|m h|m h k p Hi Hm Hk Hp IH]; intros Hh; cbn; [repeat constructor; done..|].
  destruct (live_facts k h Hk) as (_ & Hs & _ & Hc & _). destruct (IH Hs) as (E & Hn & Hc' & _). repeat split; [by rewrite E|by constructor..].
Qed.
Lemma bpath_len m h p : bpath m h p -> p.2 = 1%Z -> m !! nmb g h <> Some true -> 2 <= length p.1.1.
Proof. inversion 1; subst; try done. intros _ _. cbn. match goal with H : bpath _ _ ?q |- _ => inversion H; subst; cbn; lia end. Qed.

(** walks against the direction of the connections: the nodes in order, without the last one *)
Inductive walk (U : nat -> Prop) : nat -> list nat -> nat -> Prop :=
| w_nil u : walk U u [] u
| w_cons u k l v : U k -> k ∈ live g u -> walk U (src g k) l v -> walk U u (u :: l) v.
Lemma walk_app U u l v l' w : walk U u l v -> walk U v l' w -> walk U u (l ++ l') w.
Proof. induction 1; intros H'; [done|]. cbn. econstructor; eauto. Qed.
Lemma walk_split U u l1 c l2 v : walk U u (l1 ++ c :: l2) v -> walk U u l1 c /\ walk U c (c :: l2) v.
Proof.
  revert u. induction l1 as [|x l1 IH]; intros u H; cbn in H.
  - inversion H; subst. split; [constructor|]. done.
  - inversion H; subst. apply IH in H6 as [? ?]. split; [|done]. by econstructor.
Qed.
Lemma walk_mono (U V : nat -> Prop) u l v : (forall k, U k -> V k) -> walk U u l v -> walk V u l v.
Proof. intros H. induction 1; [constructor|]. econstructor; eauto. Qed.
Lemma walk_nodes U u l v : walk U u l v -> Forall (fun x => g_input g <= x < length (g_nodes g)) l.
Proof using Hg. induction 1 as [|u k l v Hk Hl Hw IH]; constructor; [|done]. by destruct (live_facts k u Hl) as (_ & _ & ? & _). Qed.

Lemma walk_bpath l : forall m u v, walk (fun _ => True) u l v -> u < length (g_nodes g) -> NoDup l -> (forall x, x ∈ l -> m !! nmb g x <> Some true) ->
  g_input g <= v < length (g_nodes g) -> N <= length m -> (m !! nmb g v = Some true \/ v ∈ l) -> exists p, bpath m u p /\ p.2 = 1%Z /\ list.last p.1.1 = Some v.
Proof using Hg.
  induction l as [|x l IH]; intros m u v Hw Hu Hnd Hun Hv Hm Hor.
  - inversion Hw; subst. destruct Hor as [Hor|Hor]; [|by apply elem_of_nil in Hor]. exists ([v], [], 1%Z). split; [|done]. constructor; [lia|done].
  - inversion Hw as [|? k ? ? _ Hk Hw']; subst. apply list.NoDup_cons in Hnd as [Hx Hnd]. destruct (live_facts k x Hk) as (_ & Hs & Hxr & _).
    pose proof (walk_nodes _ _ _ _ Hw') as Hl.
    destruct (IH (<[nmb g x := true]> m) (src g k) v Hw' Hs Hnd) as (p & Hp & Ep & El).
    + intros y Hy. rewrite list_lookup_insert_ne; [apply Hun; by right|]. intros E. apply num_inj in E; [by subst|lia|].
      by apply (proj1 (list.Forall_forall _ _) Hl) in Hy as [_ ?].
    + done.
    + by rewrite insert_length.
    + destruct Hor as [Hor|Hor].
      * destruct (decide (nmb g x = nmb g v)) as [E|E].
        -- left. rewrite E, list_lookup_insert; [done|]. destruct (num_lt v) as (_ & ? & _); lia.
        -- left. by rewrite list_lookup_insert_ne.
      * apply elem_of_cons in Hor as [->|]; [|by right]. left. rewrite list_lookup_insert; [done|]. destruct (num_lt x) as (_ & ? & _); lia.
    + exists (ext x k p). split; [|split; [done|]].
      * constructor; [lia|apply Hun; left|done|done].
      * cbn. destruct (p.1.1) eqn:E'; [done|]. by rewrite <- El.
Qed.

(** the places of a path *)
Lemma bpath_walk m h p k : bpath m h p -> N <= length m -> h < length (g_nodes g) -> k ∈ p.1.2 ->
  k ∈ live g (dst g k) /\ exists l, walk (fun _ => True) h l (dst g k) /\ NoDup (l ++ [dst g k]) /\ (forall x, x ∈ l ++ [dst g k] -> m !! nmb g x <> Some true).
Proof using Hg.
  induction 1 as [m h|m h|m h|m h k' p Hi Hm Hk Hp IH]; intros Lm Hh Hin; [by apply elem_of_nil in Hin..|].
  cbn in Hin. apply elem_of_cons in Hin as [->|Hin].
  - destruct (live_facts k' h Hk) as (-> & _ & _). split; [done|]. exists []. split; [constructor|]. cbn. split; [apply list.NoDup_singleton|].
    intros x Hx. apply elem_of_list_singleton in Hx as ->. done.
  - destruct (live_facts k' h Hk) as (_ & Hs & Hr & _). destruct (IH ltac:(by rewrite insert_length) Hs Hin) as (Hl & l & Hw & Hnd & Hun).
    split; [done|]. exists (h :: l). assert (Hhn : h ∉ l ++ [dst g k]).
    { intros Hx. apply Hun in Hx. rewrite list_lookup_insert in Hx; [done|]. destruct (num_lt h Hh) as (_ & ? & _); lia. }
    split; [by apply (w_cons _ h k')|]. cbn. split; [by constructor|]. intros x Hx. apply elem_of_cons in Hx as [->|Hx]; [done|].
    pose proof (Hun x Hx) as H'. rewrite list_lookup_insert_ne in H'; [done|]. intros E. apply num_inj in E; [by subst|done|].
    apply elem_of_app in Hx as [Hx|Hx].
    + pose proof (walk_nodes _ _ _ _ Hw) as HF. apply (proj1 (list.Forall_forall _ _) HF) in Hx as [_ ?]. done.
    + apply elem_of_list_singleton in Hx as ->. destruct (live_facts _ _ Hl) as (_ & _ & ? & _). lia.
Qed.

(** the end of a path and its flag *)
Lemma bpath_last m h p : bpath m h p -> h < length (g_nodes g) -> exists v, list.last p.1.1 = Some v /\ v < length (g_nodes g) /\
  (p.2 = 0%Z /\ v < g_input g \/ p.2 = 1%Z /\ ~ v < g_input g /\ (m !! nmb g v = Some true \/ live g v <> []) \/ p.2 = (-1)%Z /\ ~ v < g_input g /\ live g v = []).
Proof using Hg.
  induction 1 as [m h|m h|m h|m h k p Hi Hm Hk Hp IH]; intros Hh; cbn.
  - exists h. tauto. - exists h. tauto. - exists h. tauto.
  - destruct (live_facts k h Hk) as (_ & Hs & Hr & _). destruct (IH Hs) as (v & El & Hv & Hc). exists v. split; [|split; [done|]].
    + destruct (p.1.1); [done|]. by rewrite <- El.
    + destruct Hc as [?|[(Q1 & Q2 & Q3)|?]]; [tauto| |tauto]. right; left. split; [done|]. split; [done|].
      destruct (decide (nmb g h = nmb g v)) as [E|E].
      * right. apply num_inj in E; [|lia|done]. subst v. intros E. rewrite E in Hk. by apply elem_of_nil in Hk.
      * rewrite list_lookup_insert_ne in Q3 by done. done.
Qed.

Definition m0 : list bool := replicate N false.
Lemma m0_len : N <= length m0.
Proof. unfold m0. rewrite replicate_length. lia. Qed.
Lemma m0_un x : m0 !! x <> Some true.
Proof. unfold m0. intros H. apply lookup_replicate in H as [? _]. done. Qed.
(** the connections that some list passes through; the nodes where some list ends *)
Definition used (k : nat) : Prop := exists i p, i < g_output g /\ bpath m0 (i + g_input g) p /\ k ∈ p.1.2.
Definition ends (v : nat) : Prop := exists i p, i < g_output g /\ bpath m0 (i + g_input g) p /\ list.last p.1.1 = Some v /\ p.2 <> (-1)%Z.

Lemma out_lt i : i < g_output g -> i + g_input g < length (g_nodes g).
Proof using Hg. pose proof (ok_size _ _ Hg). lia. Qed.

(** a list of x without an element satisfying P, or up to the first one *)
Lemma first_split (P : nat -> Prop) `{forall x, Decision (P x)} l : (exists x, x ∈ l /\ P x) -> exists l1 c l2, l = l1 ++ c :: l2 /\ P c /\ forall x, x ∈ l1 -> ~ P x.
Proof.
  induction l as [|x l IH]; intros (y & Hy & HP); [by apply elem_of_nil in Hy|]. destruct (decide (P x)) as [D|D].
  - exists [], x, l. split; [done|]. split; [done|]. intros z Hz. by apply elem_of_nil in Hz.
  - apply elem_of_cons in Hy as [->|Hy]; [done|]. destruct IH as (l1 & c & l2 & -> & Hc & Hl); [eauto|]. exists (x :: l1), c, l2.
    split; [done|]. split; [done|]. intros z Hz. apply elem_of_cons in Hz as [->|Hz]; auto.
Qed.

Lemma cycle_has_end s l : walk used s l s -> NoDup l -> l <> [] -> exists x, x ∈ l /\ ends x.
Proof using Hg.
  intros Hw Hnd Hne. destruct l as [|s' l]; [done|].
  assert (Q : s' = s /\ exists k, used k /\ k ∈ live g s) by (inversion Hw; subst; eauto). destruct Q as (-> & k & Hk & Hkl).
  destruct Hk as (i & p & Hi & Hp & Hin). pose proof (out_lt i Hi) as Ho.
  destruct (bpath_walk m0 _ p k Hp m0_len Ho Hin) as (Hkl' & l1 & Hw1 & Hnd1 & _).
  destruct (live_facts k s Hkl) as (Ed & _ & _). rewrite Ed in *.
  destruct (first_split (fun x => x ∈ s :: l) (l1 ++ [s])) as (a & c & z & E & Hc & Ha).
  { exists s. split; [apply elem_of_app; right; by left|by left]. }
  assert (Hwa : walk (fun _ => True) (i + g_input g) a c).
  { destruct z as [|z0 z'] using rev_ind.
    - apply app_inj_tail in E as [-> ->]. done.
    - clear IHz'. replace (a ++ c :: z' ++ [z0]) with ((a ++ c :: z') ++ [z0]) in E by (rewrite <- (assoc_L (++)); done).
      apply app_inj_tail in E as [-> _]. by apply walk_split in Hw1 as [? _]. }
  apply elem_of_list_split in Hc as (b1 & b2 & Eb).
  assert (Hcc : walk (fun _ => True) c (c :: b2 ++ b1) c).
  { apply (walk_mono _ (fun _ => True)) in Hw; [|done]. rewrite Eb in Hw. apply walk_split in Hw as [H1 H2].
    change (c :: b2 ++ b1) with ((c :: b2) ++ b1). by eapply walk_app. }
  assert (Hperm : c :: b2 ++ b1 ≡ₚ s :: l). { rewrite Eb, <- Permutation_middle. f_equiv. by rewrite (comm (++)). }
  assert (Hndc : NoDup (c :: b2 ++ b1)) by (by rewrite Hperm).
  assert (Hrange : g_input g <= c < length (g_nodes g)).
  { pose proof (walk_nodes _ _ _ _ Hcc) as HF. by apply list.Forall_cons in HF as [? _]. }
  destruct (walk_bpath (a ++ c :: b2 ++ b1) m0 (i + g_input g) c) as (q & Hq & Eq & El).
  - by eapply walk_app.
  - done.
  - apply list.NoDup_app. split; [|split; [|done]].
    + rewrite E in Hnd1. by apply list.NoDup_app in Hnd1 as [? _].
    + intros x Hx Hx'. apply (Ha x Hx). by rewrite <- Hperm.
  - intros x _. apply m0_un.
  - done.
  - apply m0_len.
  - right. apply elem_of_app. right. left.
  - exists c. split; [rewrite <- Hperm; left|]. exists i, q. rewrite Eq. done.
Qed.

Lemma ends_live v : ends v -> v < length (g_nodes g) /\ (v < g_input g \/ live g v <> []).
Proof using Hg.
  intros (i & p & Hi & Hp & El & Hf). destruct (bpath_last _ _ _ Hp (out_lt i Hi)) as (w & El' & Hw & Hc). rewrite El in El'. injection El' as <-.
  split; [done|]. destruct Hc as [[? ?]|[(? & ? & [Hm|?])|(? & ? & ?)]]; [tauto| |tauto|done]. by apply m0_un in Hm.
Qed.
Lemma used_live k : used k -> k ∈ live g (dst g k).
Proof using Hg. intros (i & p & Hi & Hp & Hin). by destruct (bpath_walk _ _ _ _ Hp m0_len (out_lt i Hi) Hin). Qed.
End paths.
