From Verif Require Import Base BaseLemmas Cyc_Model Cyc_Spec Cyc_Proofs.
Open Scope nat_scope.

Lemma unv_le g : unv g <= length g.
Proof. unfold unv. induction g as [|x g IH]; [done|]. rewrite filter_cons. case_decide; cbn [length]; lia. Qed.
Lemma sh_refl g : sh g g.
Proof. unfold sh. induction g; constructor; done. Qed.
Lemma unvisited_V g x : unvisited g -> ~ V g x.
Proof. intros H (d & h & Hh & Hv & _). rewrite (H x h Hh) in Hv. done. Qed.

Lemma check_total g s d fuel : graph_ok g -> unvisited g -> s < length g -> length g <= fuel ->
  exists b g', no_cycles fuel g s d = Some (b, g') /\ ext g g' /\
    (b = true -> Dp g' s d /\ forall x, V g' x -> good g g' x /\ rtc (tstep g g') s x).
Proof.
  intros Hok Hu Hs Hf. destruct (lookup_lt_is_Some_2 g s Hs) as [h Hh].
  destruct (no_cycles_ok g Hok fuel g s h d (sh_refl g) Hh (Hu s h Hh)) as (b & g' & E & He & Hb); [pose proof (unv_le g); lia|].
  exists b, g'. split; [done|]. split; [done|]. intros Hbt. destruct (Hb Hbt) as [H1 H2]. split; [done|]. intros x Hx. apply H2; [done|]. by apply unvisited_V.
Qed.

Lemma reach_V g g' s d v : Dp g' s d -> (forall x, V g' x -> good g g' x) -> reach g s v -> V g' v.
Proof.
  intros Hs Hgood Hr. assert (H0 : V g' s) by (by exists d). clear Hs. induction Hr as [|x y z Hxy Hyz IH]; [done|]. apply IH.
  destruct Hxy as (h & Hh & Hy). destruct (Hgood x H0) as (h' & dx & Hh' & Hdx & H1 & H2). simplify_eq.
  destruct Hy as [Hy|Hy]; [destruct (H1 y Hy) as (dy & Hdy & _)|destruct (H2 y Hy) as (dy & Hdy & _)]; by exists dy.
Qed.

Definition dep_of (g' : list handler) (x : nat) : Z := match g' !! x with Some h => depth h | None => 0%Z end.
Lemma Dp_dep g' x d : Dp g' x d -> dep_of g' x = d.
Proof. intros (h & Hh & _ & Hd). unfold dep_of. by rewrite Hh. Qed.

Lemma accepted_depths g s d fuel g' : graph_ok g -> unvisited g -> s < length g -> length g <= fuel ->
  no_cycles fuel g s d = Some (true, g') ->
  dep_of g' s = d /\ (forall u v, reach g s u -> reach g s v -> edge g u v -> (dep_of g' u <= dep_of g' v)%Z) /\
  (forall v, reach g s v -> rtc (joined (fun a b => edge g a b /\ dep_of g' b = (dep_of g' a + 1)%Z)) s v).
Proof.
  intros Hok Hu Hs Hf E. destruct (check_total g s d fuel Hok Hu Hs Hf) as (b & g2 & E2 & He & Hb).
  rewrite E in E2. injection E2 as <- <-. destruct (Hb eq_refl) as [Hd Hall]. split; [by apply Dp_dep|]. split.
  - intros u v Hru Hrv Huv. pose proof (reach_V g g' s d u Hd (fun x Hx => proj1 (Hall x Hx)) Hru) as Vu.
    pose proof (reach_V g g' s d v Hd (fun x Hx => proj1 (Hall x Hx)) Hrv) as Vv.
    destruct Huv as [(h & Hh & Hv)|(h & Hh & Hv)].
    + destruct (proj1 (Hall u Vu)) as (h' & du & Hh' & Hdu & _ & H2). simplify_eq. destruct (H2 v Hv) as (dv & Hdv & ?).
      by rewrite (Dp_dep _ _ _ Hdu), (Dp_dep _ _ _ Hdv).
    + destruct (proj1 (Hall v Vv)) as (h' & dv & Hh' & Hdv & H1 & _). simplify_eq. destruct (H1 u Hv) as (du & Hdu & ?).
      by rewrite (Dp_dep _ _ _ Hdu), (Dp_dep _ _ _ Hdv).
  - intros v Hrv. pose proof (reach_V g g' s d v Hd (fun x Hx => proj1 (Hall x Hx)) Hrv) as Vv.
    destruct (Hall v Vv) as [_ Hr]. clear -Hr. induction Hr as [|x y z Hxy Hyz IH]; [done|]. eapply rtc_l; [|done].
    destruct Hxy as (da & db & Ha & Hb & H). unfold joined. rewrite !(Dp_dep _ _ _ Ha), !(Dp_dep _ _ _ Hb). done.
Qed.

Lemma cyclic_mono_const (f : nat -> Z) n : (forall i, (f i <= f (i + 1)%nat)%Z) -> (forall i, f (i + n) = f i) -> forall i, 0 < n -> f (i + 1) = f i.
Proof.
  intros Hm Hp i Hn. assert (H : forall k, (f (i + 1)%nat <= f (i + 1 + k)%nat)%Z).
  { induction k as [|k IH]; [rewrite Nat.add_0_r; lia|]. specialize (Hm (i + 1 + k)). replace (i + 1 + S k) with (i + 1 + k + 1) by lia. lia. }
  specialize (H (n - 1)). replace (i + 1 + (n - 1)) with (i + n) in H by lia. rewrite Hp in H. specialize (Hm i). lia.
Qed.

Lemma cycle_const g l (dep : nat -> Z) : cycle g l -> (forall u v, u ∈ l -> v ∈ l -> edge g u v -> (dep u <= dep v)%Z) ->
  forall u v, succ_in l u v -> dep v = dep u.
Proof.
  intros [Hne Hc] Hdep u v (i & Hi & Hv). assert (Hn : 0 < length l) by (destruct l; [done|cbn; lia]).
  set (n := length l) in *. set (f := fun i => match l !! (i mod n) with Some x => dep x | None => 0%Z end).
  assert (Hil : i < n) by (by eapply lookup_lt_Some).
  assert (E := cyclic_mono_const f n). specialize (fun A B => E A B i Hn). unfold f in E. rewrite (Nat.mod_small i n), Hi, Hv in E by done.
  apply E; clear E.
  - intros k. destruct (lookup_lt_is_Some_2 l (k mod n)) as [x Hx]; [by apply Nat.mod_upper_bound; lia|].
    destruct (lookup_lt_is_Some_2 l ((k + 1) mod n)) as [y Hy]; [by apply Nat.mod_upper_bound; lia|]. rewrite Hx, Hy.
    apply Hdep; [by eapply elem_of_list_lookup_2|by eapply elem_of_list_lookup_2|]. apply Hc. exists (k mod n). split; [done|].
    rewrite Nat.add_mod_idemp_l by lia. done.
  - intros k. replace (k + n) with (k + 1 * n) by lia. rewrite Nat.mod_add by lia. done.
Qed.

Lemma scan_visited rec (out : bool) arr d cnt g : forall i, i + cnt <= length arr ->
  (forall t j, i <= t < i + cnt -> arr !! t = Some j -> V g j) ->
  (exists t j dj, i <= t < i + cnt /\ arr !! t = Some j /\ Dp g j dj /\ if out then (dj < d)%Z else (d < dj)%Z) ->
  scan rec out arr d cnt i g = Some (false, g).
Proof.
  induction cnt as [|cnt IH]; intros i Hlen Hv (t & j & dj & Ht & Hj & Hdj & Hc); [lia|]. cbn [scan].
  destruct (lookup_lt_is_Some_2 arr i) as [j0 Hj0]; [lia|]. rewrite (Hj0 : rd arr i = Some j0). cbn [mbind option_bind].
  destruct (Hv i j0 ltac:(lia) Hj0) as (d0 & h0 & Hh0 & Hv0 & Hd0). rewrite (Hh0 : rd g j0 = Some h0). cbn [mbind option_bind]. rewrite Hv0.
  destruct (if out then (depth h0 <? d)%Z else (d <? depth h0)%Z) eqn:E; [done|]. apply IH; [lia|intros t' j' Ht'; apply Hv; lia|].
  exists t, j, dj. split; [|done]. destruct (decide (t = i)) as [->|]; [|lia]. exfalso. simplify_eq. destruct Hdj as (h & Hh & _ & Hd). simplify_eq.
  destruct out; lia.
Qed.

Lemma second_call g level s t i h fuel : graph_ok g -> unvisited g -> (forall u v, edge g u v -> level v = (level u + 1)%Z) ->
  s < length g -> length g <= fuel -> reach g s t -> (level s + 2 <= level t)%Z -> g !! t = Some h -> i ∈ ins h ->
  exists g1 g2, no_cycles fuel g s 0 = Some (true, g1) /\ no_cycles fuel g1 t 0 = Some (false, g2).
Proof.
  intros Hok Hu HD Hs Hf Hr Hl Ht Hi. destruct (lookup_lt_is_Some_2 g s Hs) as [hs Hhs].
  set (D := fun x => (level x - level s)%Z).
  destruct (no_cycles_acc g Hok fuel D) with (g := g) (s := s) (h := hs) as (g1 & E1 & He & Hg1); [|apply sh_refl|done|by eapply Hu|pose proof (unv_le g); lia| |].
  { intros u v Huv. unfold D. rewrite (HD u v Huv). lia. }
  { intros x d Hx. destruct (unvisited_V g x Hu). by exists d. }
  replace (D s) with 0%Z in E1 by (unfold D; lia). exists g1, (<[t := mark 0 (default h (g1 !! t))]> g1). split; [done|].
  destruct (check_total g s 0 fuel Hok Hu Hs Hf) as (b & g1' & E1' & _ & Hb). rewrite E1 in E1'. injection E1' as <- <-.
  destruct (Hb eq_refl) as [Hds Hall]. pose proof (reach_V g g1 s 0 t Hds (fun x Hx => proj1 (Hall x Hx)) Hr) as Vt.
  destruct (proj1 (Hall t Vt)) as (h' & dt & Hh' & Hdt & Hins & _). simplify_eq.
  pose proof Hdt as (h1 & Hh1 & Hv1 & Hd1). destruct fuel as [|fuel]; [lia|]. cbn [no_cycles]. rewrite (Hh1 : rd g1 t = Some h1), Hh1. cbn [mbind option_bind default from_option id].
  destruct (sh_lookup g g1 t h (ext_sh _ _ _ (sh_refl g) He) Ht) as (h1' & Hh1' & S1 & S2 & S3 & S4). assert (h1' = h1) as -> by congruence. rewrite S1, S3.
  destruct (Hok t h Ht) as (Hni & _ & Hil & _).
  assert (Hnt : forall y, y ∈ ins h -> y <> t). { intros y Hy ->. assert (H : edge g t t) by (right; eauto). apply HD in H. lia. }
  rewrite scan_visited; [done|lia| |].
  - intros k j Hk Hj. assert (Hjin : j ∈ ins h). { apply elem_of_list_lookup. exists k. unfold ins. by rewrite lookup_take by lia. }
    destruct (Hins j Hjin) as (dj & (hj & Hhj & Hvj & Hdj) & _). exists dj, hj. split; [|done]. rewrite list_lookup_insert_ne; [done|]. by apply not_eq_sym, Hnt.
  - apply elem_of_list_lookup in Hi as Hi2. destruct Hi2 as [k Hk]. unfold ins in Hk. pose proof (lookup_lt_Some _ _ _ Hk) as Hkl. rewrite take_length in Hkl. rewrite lookup_take in Hk by lia.
    destruct (Hins i Hi) as (di & Hdi & _). exists k, i, di. split; [lia|]. split; [done|]. split.
    + destruct Hdi as (hi & Hhi & Hr2). exists hi. split; [|done]. rewrite list_lookup_insert_ne; [done|]. by apply not_eq_sym, Hnt.
    + rewrite (Hg1 i di Hdi). unfold D. assert (He2 : edge g i t) by (right; eauto). apply HD in He2. lia.
Qed.

Lemma ranked_acyclic g (rank : nat -> Z) : (forall u v, edge g u v -> (rank u < rank v)%Z) -> acyclic g.
Proof.
  intros Hr l Hc. pose proof Hc as [Hne Hcy]. assert (Hn : 0 < length l) by (destruct l; [done|cbn; lia]).
  destruct (lookup_lt_is_Some_2 l 0 Hn) as [u Hu]. destruct (lookup_lt_is_Some_2 l ((0 + 1) mod length l)) as [v Hv]; [apply Nat.mod_upper_bound; lia|].
  assert (Hs : succ_in l u v) by (by exists 0).
  pose proof (cycle_const g l rank Hc (fun a b _ _ H => Z.lt_le_incl _ _ (Hr a b H)) u v Hs). pose proof (Hr u v (Hcy u v Hs)). lia.
Qed.
