From Coq Require Import Reals Lra Floats.SpecFloat.
From Verif Require Import NumLib BaseLemmas Duel_Model Ou_Model Ou_Spec.
Open Scope nat_scope.

Section gen.
Context {F : Type} (O : arith F).
Lemma loop_wr (n : nat) (g : nat -> F -> F) (l : list F) : n <= length l ->
  for_loop n 0 (fun i a => x ← rd a i; wr a i (g i x)) l = Some (imap (fun i x => if i <? n then g i x else x) l).
Proof using.
  induction n as [|n IH]; intros Hn.
  - cbn. f_equal. symmetry. rewrite <- (imap_const_id l) at 2 || idtac. apply list_eq. intros i. rewrite list_lookup_imap. by destruct (l !! i).
  - rewrite for_loop_S_r, IH by lia. cbn [mbind option_bind]. rewrite Nat.add_0_l.
    destruct (lookup_lt_is_Some_2 l n ltac:(lia)) as [x Ex]. unfold rd. rewrite list_lookup_imap, Ex. cbn -[Nat.ltb]. rewrite Nat.ltb_irrefl.
    rewrite wr_Some by (rewrite imap_length; lia). f_equal. apply list_eq. intros i. destruct (decide (i = n)) as [->|Hne].
    + rewrite list_lookup_insert by (rewrite imap_length; lia). rewrite list_lookup_imap, Ex. cbn -[Nat.ltb]. by rewrite (proj2 (Nat.ltb_lt n (S n))) by lia.
    + rewrite list_lookup_insert_ne by lia. rewrite !list_lookup_imap. destruct (l !! i); [|done]. cbn -[Nat.ltb]. f_equal.
      destruct (i <? n) eqn:E1, (i <? S n) eqn:E2; try done; rewrite ?Nat.ltb_lt, ?Nat.ltb_ge in *; lia.
Qed.
Definition step_state (xi : nat -> F) (o : ou F) (i : nat) (s : F) : F :=
  o_add O s (o_add O (o_mul O (ou_theta o) (o_sub O (ou_mu o) s)) (o_mul O (ou_sigma o) (xi i))).
Lemma evolve_eq xi o : length (ou_state o) = ou_dim o -> evolve_state O xi o = Some (with_state o (imap (step_state xi o) (ou_state o))).
Proof using.
  intros Hl. unfold evolve_state. rewrite (loop_wr (ou_dim o) (step_state xi o)) by lia. cbn -[Nat.ltb]. do 2 f_equal. apply list_eq. intros i. rewrite !list_lookup_imap.
  destruct (ou_state o !! i) as [s|] eqn:E; [|done]. cbn -[Nat.ltb]. apply lookup_lt_Some in E. by rewrite (proj2 (Nat.ltb_lt i (ou_dim o))) by lia.
Qed.
(** what a call does *)
Lemma get_action_eq xi t o a : well_formed o -> ou_dim o <= length a -> exists sg a', next_sigma O t o = Some sg /\
  get_action O xi t o a = Some (with_sigma (with_state o (imap (step_state xi o) (ou_state o))) sg, a') /\ length a' = length a /\
  (forall i x s hi lo, i < ou_dim o -> a !! i = Some x -> ou_state o !! i = Some s -> ou_max o !! i = Some hi -> ou_min o !! i = Some lo ->
     a' !! i = Some (clamp O hi lo (o_add O x (step_state xi o i s)))) /\
  (forall i, ou_dim o <= i -> a' !! i = a !! i).
Proof using.
  intros (L1 & L2 & L3 & Hd) Ha. unfold get_action. rewrite evolve_eq by done. cbn [mbind option_bind].
  unfold next_sigma. cbn [ou_decay with_state ou_max_sigma ou_min_sigma ou_dim with_sigma ou_state ou_max ou_min]. rewrite decide_False by done.
  eexists. set (g := fun i x => clamp O (default x (ou_max o !! i)) (default x (ou_min o !! i)) (o_add O x (default x (imap (step_state xi o) (ou_state o) !! i)))).
  exists (imap (fun i x => if i <? ou_dim o then g i x else x) a). split; [done|]. cbn [mbind option_bind]. split.
  - rewrite (for_loop_ext _ (fun i a => x ← rd a i; wr a i (g i x))).
    + by rewrite loop_wr.
    + intros i l Hi. unfold rd. destruct (l !! i) as [x|]; [|done]. cbn. unfold g.
      destruct (lookup_lt_is_Some_2 (imap (step_state xi o) (ou_state o)) i) as [y ->]; [rewrite imap_length; lia|]. cbn.
      destruct (lookup_lt_is_Some_2 (ou_max o) i) as [hi ->]; [lia|]. cbn. destruct (lookup_lt_is_Some_2 (ou_min o) i) as [lo ->]; [lia|]. done.
  - split; [by rewrite imap_length|]. split.
    + intros i x s hi lo Hi Ex Es Eh El. rewrite list_lookup_imap, Ex. cbn -[Nat.ltb]. rewrite (proj2 (Nat.ltb_lt _ _) Hi). unfold g. rewrite list_lookup_imap, Es, Eh, El. done.
    + intros i Hi. rewrite list_lookup_imap. destruct (a !! i); [|done]. cbn -[Nat.ltb]. by rewrite (proj2 (Nat.ltb_ge _ _) Hi).
Qed.
Lemma clamp_between hi lo x : (forall y, o_lt O y y = false) -> o_lt O hi lo = false -> o_lt O hi (clamp O hi lo x) = false /\ o_lt O (clamp O hi lo x) lo = false.
Proof using.
  intros Hirr Hb. unfold clamp. cbv zeta. set (y := if o_lt O hi x then hi else x).
  assert (Hy : o_lt O hi y = false) by (unfold y; by destruct (o_lt O hi x) eqn:E). by destruct (o_lt O y lo) eqn:E.
Qed.
(** all calls *)
Lemma play_ok cs : forall o, (forall y, o_lt O y y = false) -> well_formed o -> Forall (enough o) cs ->
  (forall i lo hi, ou_min o !! i = Some lo -> ou_max o !! i = Some hi -> o_lt O hi lo = false) ->
  exists o' outs, play O cs o = Some (o', outs) /\ length outs = length cs /\
    Forall (fun a => ou_dim o <= length a /\ forall i x lo hi, i < ou_dim o -> a !! i = Some x -> ou_min o !! i = Some lo -> ou_max o !! i = Some hi -> o_lt O hi x = false /\ o_lt O x lo = false) outs.
Proof using.
  induction cs as [|c cs IH]; intros o Hirr Hw Hc Hb; [by exists o, []|].
  apply list.Forall_cons in Hc as [Hc Hcs]. destruct (get_action_eq (c_xi c) (c_t c) o (c_actions c) Hw Hc) as (sg & a' & _ & E & La & Va & _).
  set (o1 := with_sigma (with_state o (imap (step_state (c_xi c) o) (ou_state o))) sg) in *.
  destruct (IH o1) as (o2 & outs & E2 & L2 & F2); [done| |done|done|].
  { destruct Hw as (L1 & L3 & L4 & Hd). repeat split; cbn; rewrite ?imap_length; done. }
  exists o2, (a' :: outs). cbn [play]. rewrite E. cbn [mbind option_bind fst snd]. rewrite E2. cbn [mbind option_bind fst snd]. split; [done|]. split; [cbn; lia|].
  constructor; [|done]. split; [unfold enough in Hc; lia|]. intros i x lo hi Hi Ex El Eh.
  destruct Hw as (L1 & L3 & L4 & Hd). destruct (lookup_lt_is_Some_2 (ou_state o) i) as [s Es]; [lia|]. destruct (lookup_lt_is_Some_2 (c_actions c) i) as [y Ey]; [unfold enough in Hc; lia|].
  rewrite (Va i y s hi lo Hi Ey Es Eh El) in Ex. injection Ex as <-. apply clamp_between; [done|]. by eapply Hb.
Qed.
End gen.

(** ** floats *)
Lemma SFltb_irrefl x : SFltb x x = false.
Proof. unfold SFltb, SFcompare. destruct x as [s|s| |s m e]; try done; destruct s; try done; by rewrite Z.compare_refl, Pos.compare_cont_refl || rewrite Z.compare_refl. Qed.
Lemma SFcompare_total x y : number x -> number y -> SFltb y x = false -> SFleb x y = true.
Proof.
  intros Hx Hy. unfold SFltb, SFleb, SFcompare. destruct x as [sx|sx| |sx mx ex], y as [sy|sy| |sy my ey]; try done; destruct sx, sy; try done.
  all: rewrite (Z.compare_antisym ex ey); destruct (ex ?= ey)%Z eqn:E; cbn; try done.
  all: change (Pos.compare_cont Eq) with Pos.compare; rewrite (Pos.compare_antisym mx my); by destruct (mx ?= my)%positive.
Qed.
Lemma SFltb_leb hi lo : SFltb hi lo = true -> SFleb lo hi = true -> False.
Proof.
  unfold SFleb, SFltb, SFcompare. destruct hi as [sh|sh| |sh mh eh], lo as [sl|sl| |sl ml el]; try done; destruct sh, sl; try done;
  rewrite (Z.compare_antisym eh el); destruct (eh ?= el)%Z; try done; change (Pos.compare_cont Eq) with Pos.compare in *; rewrite (Pos.compare_antisym mh ml); by destruct (mh ?= ml)%positive.
Qed.

(** sums of numbers are numbers, except for opposite infinities *)
Lemma shr_1_nonneg x : (0 <= shr_m x)%Z -> (0 <= shr_m (shr_1 x))%Z.
Proof. destruct x as [m r s]. cbn. destruct m as [|[p|p|]|[p|p|]]; cbn; lia. Qed.
Lemma iter_pos_inv {A} (P : A -> Prop) (f : A -> A) : (forall x, P x -> P (f x)) -> forall n x, P x -> P (SpecFloat.iter_pos f n x).
Proof. intros Hf. induction n as [n IH|n IH|]; intros x Hx; cbn; auto. Qed.
Lemma shr_nonneg x e n : (0 <= shr_m x)%Z -> (0 <= shr_m (shr x e n).1)%Z.
Proof. intros H. destruct n; cbn; try done. by apply (iter_pos_inv (fun y => (0 <= shr_m y)%Z) _ shr_1_nonneg). Qed.
Lemma shr_fexp_nonneg prec emax m e l : (0 <= m)%Z -> (0 <= shr_m (shr_fexp prec emax m e l).1)%Z.
Proof. intros H. unfold shr_fexp. apply shr_nonneg. by destruct l as [|[]]. Qed.
Lemma round_even_nonneg m l : (0 <= m)%Z -> (0 <= round_nearest_even m l)%Z.
Proof. intros H. destruct l as [|[]]; cbn; try lia. destruct (Z.even m); lia. Qed.
Lemma round_aux_number prec emax sx mx ex lx : (0 <= mx)%Z -> number (binary_round_aux prec emax sx mx ex lx).
Proof.
  intros H. unfold binary_round_aux. pose proof (shr_fexp_nonneg prec emax mx ex lx H) as H1. destruct (shr_fexp prec emax mx ex lx) as [mrs e']. cbn in H1.
  pose proof (shr_fexp_nonneg prec emax (round_nearest_even (shr_m mrs) (loc_of_shr_record mrs)) e' loc_Exact (round_even_nonneg _ _ H1)) as H2.
  destruct (shr_fexp prec emax (round_nearest_even (shr_m mrs) (loc_of_shr_record mrs)) e' loc_Exact) as [mrs2 e2]. cbn in H2.
  destruct (shr_m mrs2); [done|by destruct (e2 <=? emax - prec)%Z|lia].
Qed.
Lemma normalize_number prec emax m e z : number (binary_normalize prec emax m e z).
Proof. unfold binary_normalize, binary_round. destruct m; [done|..]; destruct (shl_align _ _ _); by apply round_aux_number. Qed.
Definition finite (x : spec_float) : Prop := match x with S754_zero _ | S754_finite _ _ _ => True | _ => False end.
Lemma add_number x s : finite x -> number s -> number (SFadd 24 128 x s).
Proof. intros Hx Hs. destruct x as [sx|sx| |sx mx ex], s as [ss|ss| |ss ms es]; try done; cbn -[binary_normalize]; try (by destruct (Bool.eqb sx ss)). apply normalize_number. Qed.

(** ** reals *)
Lemma Rlt_irrefl_b (y : R) : o_lt reals y y = false.
Proof. cbn. apply bool_decide_false. lra. Qed.
Lemma next_sigma_eq t (o : ou R) : ou_decay o <> 0%N ->
  next_sigma reals t o = Some (if (t <? ou_decay o)%N then ou_max_sigma o else ou_min_sigma o).
Proof.
  intros Hd. unfold next_sigma. rewrite decide_False by done. cbn [o_sub o_mul o_nat reals]. f_equal. destruct (t <? ou_decay o)%N eqn:E.
  - apply N.ltb_lt in E. rewrite N.div_small by done. cbn. lra.
  - apply N.ltb_ge in E. assert (Hq : (1 <= t / ou_decay o)%N) by (apply N.div_le_lower_bound; lia).
    destruct (1 <? t / ou_decay o)%N eqn:E2; [cbn; lra|]. apply N.ltb_ge in E2. replace (t / ou_decay o)%N with 1%N by lia. change (N.to_nat 1) with 1. cbn. lra.
Qed.
Lemma drand_range M r : (0 <= r <= M)%Z -> (/ (IZR M + 1) <= drand M r <= 1)%R.
Proof.
  intros [H1 H2]. apply IZR_le in H1, H2. unfold drand, Rdiv. assert (Hi : (0 < / (IZR M + 1))%R) by (apply Rinv_0_lt_compat; lra). split.
  - nra.
  - replace 1%R with ((IZR M + 1) * / (IZR M + 1))%R at 3 by (field; lra). apply Rmult_le_compat_r; lra.
Qed.
Lemma normal_bound M r1 r2 : (0 <= r1 <= M)%Z -> (Rabs (random_normal M r1 r2) <= R_sqrt.sqrt (2 * ln (IZR M + 1)))%R.
Proof.
  intros H. pose proof (drand_range M r1 H) as [Hd1 Hd2]. destruct H as [H1 H2]. apply IZR_le in H1, H2.
  assert (Hi : (0 < / (IZR M + 1))%R) by (apply Rinv_0_lt_compat; lra).
  assert (Hln : (- ln (IZR M + 1) <= ln (drand M r1) <= 0)%R).
  { split.
    - rewrite <- ln_Rinv by lra. destruct Hd1 as [Hl| ->]; [left; by apply ln_increasing|right; done].
    - rewrite <- ln_1. destruct Hd2 as [Hl| ->]; [left; apply ln_increasing; lra|right; done]. }
  unfold random_normal. rewrite Rabs_mult. rewrite (Rabs_pos_eq (R_sqrt.sqrt _)) by apply sqrt_pos.
  assert (Hc : (Rabs (cos (2 * PI * drand M r2)) <= 1)%R). { apply Rabs_le. pose proof (COS_bound (2 * PI * drand M r2)). lra. }
  pose proof (sqrt_pos (-2 * ln (drand M r1))) as Hs. apply Rle_trans with (R_sqrt.sqrt (-2 * ln (drand M r1)) * 1)%R; [by apply Rmult_le_compat_l|].
  rewrite Rmult_1_r. apply sqrt_le_1_alt. lra.
Qed.
Lemma step_bound (xi : nat -> R) (o : ou R) (i : nat) (s K B S : R) : (0 < ou_theta o <= 1)%R -> (Rabs (ou_sigma o) <= S)%R -> (Rabs (xi i) <= B)%R -> (S * B <= ou_theta o * K)%R ->
  (Rabs (s - ou_mu o) <= K)%R -> (Rabs (step_state reals xi o i s - ou_mu o) <= K)%R.
Proof.
  intros Ht HS HB HK Hs. unfold step_state. cbn [o_add o_mul o_sub reals].
  replace (s + (ou_theta o * (ou_mu o - s) + ou_sigma o * xi i) - ou_mu o)%R with ((1 - ou_theta o) * (s - ou_mu o) + ou_sigma o * xi i)%R by ring.
  eapply Rle_trans; [apply Rabs_triang|]. rewrite !Rabs_mult, (Rabs_pos_eq (1 - ou_theta o)) by lra.
  pose proof (Rabs_pos (ou_sigma o)). pose proof (Rabs_pos (xi i)). pose proof (Rabs_pos (s - ou_mu o)).
  assert (Rabs (ou_sigma o) * Rabs (xi i) <= S * B)%R by (apply Rmult_le_compat; lra). nra.
Qed.
Lemma play_state cs : forall (o : ou R) o' outs K B S, well_formed o -> Forall (enough o) cs -> (0 < ou_theta o <= 1)%R ->
  (Rabs (ou_sigma o) <= S)%R -> (Rabs (ou_max_sigma o) <= S)%R -> (Rabs (ou_min_sigma o) <= S)%R ->
  Forall (fun c => forall i, i < ou_dim o -> (Rabs (c_xi c i) <= B)%R) cs -> (S * B <= ou_theta o * K)%R ->
  (forall i, i < ou_dim o -> (Rabs (el (ou_state o) i - ou_mu o) <= K)%R) ->
  play reals cs o = Some (o', outs) -> ou_mu o' = ou_mu o /\ forall i, i < ou_dim o -> (Rabs (el (ou_state o') i - ou_mu o) <= K)%R.
Proof.
  induction cs as [|c cs IH]; intros o o' outs K B S Hw Hc Ht S1 S2 S3 HB HK Hs E.
  - cbn in E. injection E as <- <-. done.
  - apply list.Forall_cons in Hc as [Hc Hcs]. apply list.Forall_cons in HB as [HB HBs]. pose proof Hw as (L1 & L2 & L3 & Hd).
    destruct (get_action_eq reals (c_xi c) (c_t c) o (c_actions c) Hw Hc) as (sg & a' & Esg & Ea & _). rewrite next_sigma_eq in Esg by done. injection Esg as <-.
    cbn [play] in E. rewrite Ea in E. cbn [mbind option_bind fst snd] in E.
    match type of E with context [play reals cs ?oo] => set (o1 := oo) in * end.
    destruct (play reals cs o1) as [[o2 outs2]|] eqn:E2; [|done].
    cbn in E. injection E as <- <-.
    apply (IH o1 o2 outs2 K B S); try done.
    + repeat split; cbn; rewrite ?imap_length; done.
    + cbn. by destruct (c_t c <? ou_decay o)%N.
    + intros i Hi. change (ou_dim o1) with (ou_dim o) in Hi. change (ou_state o1) with (imap (step_state reals (c_xi c) o) (ou_state o)). change (ou_mu o1) with (ou_mu o). destruct (lookup_lt_is_Some_2 (ou_state o) i) as [s Es]; [lia|].
      rewrite (el_lookup _ _ (step_state reals (c_xi c) o i s)) by (by rewrite list_lookup_imap, Es). apply (step_bound _ _ _ _ K B S); try done; [by apply HB|].
      rewrite <- (el_lookup _ _ _ Es). by apply Hs.
Qed.
