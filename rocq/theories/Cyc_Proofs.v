From Verif Require Import Base BaseLemmas Cyc_Model Cyc_Spec.
Open Scope nat_scope.

Definition same (h h' : handler) : Prop :=
  h_inputs h' = h_inputs h /\ h_outputs h' = h_outputs h /\ n_in h' = n_in h /\ n_out h' = n_out h.
Definition grow (h h' : handler) : Prop := same h h' /\ (visited h = true -> h' = h).
Definition ext : list handler -> list handler -> Prop := Forall2 grow.
Definition sh : list handler -> list handler -> Prop := Forall2 same.
Definition Dp (g : list handler) (x : nat) (d : Z) : Prop := exists h, g !! x = Some h /\ visited h = true /\ depth h = d.
Definition V (g : list handler) (x : nat) : Prop := exists d, Dp g x d.
Definition unv (g : list handler) : nat := length (filter (fun h => visited h = false) g).

Lemma same_refl h : same h h. Proof. done. Qed.
Lemma grow_refl h : grow h h. Proof. done. Qed.
Lemma same_trans a b c : same a b -> same b c -> same a c.
Proof. intros (H1 & H2 & H3 & H4) (H5 & H6 & H7 & H8). repeat split; congruence. Qed.
Lemma grow_trans a b c : grow a b -> grow b c -> grow a c.
Proof. intros [H1 H2] [H3 H4]. split; [by eapply same_trans|]. intros Hv. pose proof (H2 Hv) as E. rewrite E in H4. rewrite (H4 Hv). done. Qed.
Lemma ext_refl g : ext g g.
Proof. unfold ext. induction g; constructor; done. Qed.
Lemma ext_trans a b c : ext a b -> ext b c -> ext a c.
Proof. unfold ext. intros H1. revert c. induction H1 as [|x y l k Hx Hl IH]; intros c H2; inversion H2; subst; constructor; [by eapply grow_trans|by apply IH]. Qed.
Lemma ext_sh g0 a b : sh g0 a -> ext a b -> sh g0 b.
Proof. unfold sh, ext. intros H1. revert b. induction H1 as [|x y l k Hx Hl IH]; intros c H2; inversion H2; subst; constructor; [eapply same_trans; [done|]; by match goal with H : grow _ _ |- _ => destruct H end|by apply IH]. Qed.
Lemma ext_Dp a b x d : ext a b -> Dp a x d -> Dp b x d.
Proof.
  intros He (h & Hh & Hv & Hd). destruct (Forall2_lookup_l _ _ _ _ _ He Hh) as (h' & Hh' & _ & Heq). exists h'.
  rewrite (Heq Hv) in *. done.
Qed.
Lemma ext_V a b x : ext a b -> V a x -> V b x.
Proof. intros He [d Hd]. exists d. by eapply ext_Dp. Qed.
Lemma Dp_fun g x d d' : Dp g x d -> Dp g x d' -> d = d'.
Proof. intros (h & Hh & _ & <-) (h' & Hh' & _ & <-). by simplify_eq. Qed.
Lemma ext_unv a b : ext a b -> unv b <= unv a.
Proof.
  unfold unv. intros H. induction H as [|x y l k [Hs Hx] Hl IH]; [done|]. rewrite !filter_cons.
  destruct (decide (visited y = false)) as [Hy|Hy]; cbn [length].
  - destruct (decide (visited x = false)) as [Hx2|Hx2]; cbn [length]; [lia|]. destruct (visited x) eqn:E; [|done]. rewrite (Hx eq_refl) in Hy. congruence.
  - destruct (decide (visited x = false)); cbn [length]; lia.
Qed.
Lemma mark_ext g s h d : g !! s = Some h -> visited h = false -> ext g (<[s := mark d h]> g) /\ S (unv (<[s := mark d h]> g)) = unv g.
Proof.
  revert s. induction g as [|x g IH]; intros s Hs Hv; [done|]. destruct s as [|s].
  - cbn in Hs. injection Hs as ->. change (<[0:=mark d h]> (h :: g)) with (mark d h :: g). split.
    + constructor; [|apply ext_refl]. split; [done|]. congruence.
    + unfold unv. rewrite !filter_cons. cbn [mark visited]. rewrite (decide_True (P := visited h = false)) by done. by rewrite decide_False.
  - change (<[S s:=mark d h]> (x :: g)) with (x :: <[s := mark d h]> g). destruct (IH s Hs Hv) as [H1 H2]. split; [constructor; done|]. unfold unv in *. rewrite !filter_cons. case_decide; cbn [length]; lia.
Qed.
Lemma sh_lookup g0 g x h0 : sh g0 g -> g0 !! x = Some h0 -> exists h, g !! x = Some h /\ same h0 h.
Proof. intros H Hx. by destruct (Forall2_lookup_l _ _ _ _ _ H Hx) as (h & ? & ?); eauto. Qed.
Lemma not_V g s h : g !! s = Some h -> visited h = false -> ~ V g s.
Proof. intros Hs Hv (d & h' & Hh' & Hv' & _). simplify_eq. congruence. Qed.

Lemma V_dec g x : V g x \/ ~ V g x.
Proof.
  destruct (g !! x) as [h|] eqn:E; [destruct (visited h) eqn:Ev|].
  - left. exists (depth h), h. done.
  - right. by eapply not_V.
  - right. intros (d & h & ? & _). congruence.
Qed.

Section graph.
  Context (g0 : list handler).
  Hypothesis Hok : graph_ok g0.

  (** a step of the search tree: the depths differ by one in the direction of the edge *)
  Definition tstep (g : list handler) (a b : nat) : Prop :=
    exists da db, Dp g a da /\ Dp g b db /\ ((edge g0 a b /\ db = (da + 1)%Z) \/ (edge g0 b a /\ da = (db + 1)%Z)).
  Definition good (g : list handler) (x : nat) : Prop := exists h d, g0 !! x = Some h /\ Dp g x d /\
    (forall y, y ∈ ins h -> exists dy, Dp g y dy /\ (dy <= d)%Z) /\ (forall y, y ∈ outs h -> exists dy, Dp g y dy /\ (d <= dy)%Z).

  Lemma tstep_ext a b x y : ext a b -> tstep a x y -> tstep b x y.
  Proof. intros He (da & db & Ha & Hb & H). exists da, db. split; [by eapply ext_Dp|]. split; [by eapply ext_Dp|done]. Qed.
  Lemma rtc_ext a b x y : ext a b -> rtc (tstep a) x y -> rtc (tstep b) x y.
  Proof. intros He H. induction H as [|x y z Hxy Hyz IH]; [done|]. eapply rtc_l; [by eapply tstep_ext|done]. Qed.
  Lemma good_ext a b x : ext a b -> good a x -> good b x.
  Proof.
    intros He (h & d & Hh & Hd & H1 & H2). exists h, d. split; [done|]. split; [by eapply ext_Dp|]. split.
    - intros y Hy. destruct (H1 y Hy) as (dy & Hdy & ?). exists dy. split; [by eapply ext_Dp|done].
    - intros y Hy. destruct (H2 y Hy) as (dy & Hdy & ?). exists dy. split; [by eapply ext_Dp|done].
  Qed.

  Definition rec_spec (rec : list handler -> nat -> Z -> option (bool * list handler)) (f : nat) : Prop :=
    forall g s h d, sh g0 g -> g !! s = Some h -> visited h = false -> unv g <= f ->
      exists b g', rec g s d = Some (b, g') /\ ext g g' /\
        (b = true -> Dp g' s d /\ forall x, V g' x -> ~ V g x -> good g' x /\ rtc (tstep g') s x).

  Lemma scan_ok rec f (out : bool) arr s d cnt : rec_spec rec f ->
    forall i g, i + cnt <= length arr ->
    (forall t j, i <= t < i + cnt -> arr !! t = Some j -> j < length g0 /\ if out then edge g0 s j else edge g0 j s) ->
    sh g0 g -> Dp g s d -> unv g <= f ->
    exists b g', scan rec out arr d cnt i g = Some (b, g') /\ ext g g' /\
      (b = true -> (forall t j, i <= t < i + cnt -> arr !! t = Some j -> exists dj, Dp g' j dj /\ if out then (d <= dj)%Z else (dj <= d)%Z) /\
        forall x, V g' x -> ~ V g x -> good g' x /\ rtc (tstep g') s x).
  Proof using Type.
    intros Hrec. induction cnt as [|cnt IH]; intros i g Hlen Harr Hsh Hs Hun; cbn [scan].
    - exists true, g. split; [done|]. split; [apply ext_refl|]. intros _. split; [intros; lia|]. intros x Hx Hn. done.
    - destruct (lookup_lt_is_Some_2 arr i) as [j Hj]; [lia|]. rewrite (Hj : rd arr i = Some j). cbn [mbind option_bind].
      destruct (Harr i j ltac:(lia) Hj) as [Hjl Hje]. destruct (lookup_lt_is_Some_2 g j) as [h Hh].
      { by rewrite <- (Forall2_length _ _ _ Hsh). }
      rewrite (Hh : rd g j = Some h). cbn [mbind option_bind]. destruct (visited h) eqn:Hv.
      + assert (HDj : Dp g j (depth h)) by (exists h; done).
        destruct (if out then (depth h <? d)%Z else (d <? depth h)%Z) eqn:Hc.
        * exists false, g. split; [done|]. split; [apply ext_refl|]. done.
        * destruct (IH (S i) g) as (b & g' & E & He & Hb); [lia|intros t j' Ht; apply Harr; lia|done|done|done|].
          exists b, g'. split; [done|]. split; [done|]. intros Hbt. destruct (Hb Hbt) as [H1 H2]. split; [|done].
          intros t j' Ht Hj'. destruct (decide (t = i)) as [->|]; [|apply (H1 t); [lia|done]]. simplify_eq.
          exists (depth h). split; [by eapply ext_Dp|]. destruct out; lia.
      + destruct (Hrec g j h (if out then (d + 1)%Z else (d - 1)%Z) Hsh Hh Hv Hun) as (b & g1 & E & He & Hb). rewrite E. cbn [mbind option_bind fst snd].
        destruct b.
        * destruct (Hb eq_refl) as [HDj Hnew].
          destruct (IH (S i) g1) as (b' & g' & E' & He' & Hb'); [lia|intros t j' Ht; apply Harr; lia|by eapply ext_sh|by eapply ext_Dp|pose proof (ext_unv _ _ He); lia|].
          exists b', g'. split; [done|]. split; [by eapply ext_trans|]. intros Hbt. destruct (Hb' Hbt) as [H1 H2]. split.
          -- intros t j' Ht Hj'. destruct (decide (t = i)) as [->|]; [|apply (H1 t); [lia|done]]. simplify_eq.
             eexists. split; [by eapply ext_Dp|]. destruct out; lia.
          -- intros x Hx Hn. destruct (V_dec g1 x) as [HV1|HV1].
             ++ destruct (Hnew x HV1 Hn) as [Hg Hr]. split; [by eapply good_ext|]. eapply rtc_l; [|by eapply rtc_ext].
                exists d, (if out then (d + 1)%Z else (d - 1)%Z). split; [eapply ext_Dp; [|exact Hs]; by eapply ext_trans|]. split; [by eapply ext_Dp|].
                destruct out; [left|right]; split; try done; lia.
             ++ by apply H2.
        * exists false, g1. split; [done|]. split; [done|]. done.
  Qed.

  Lemma no_cycles_ok f : rec_spec (no_cycles f) f.
  Proof using Hok.
    induction f as [|f IH]; intros g s h d Hsh Hs Hv Hun.
    - exfalso. destruct (mark_ext g s h d Hs Hv). lia.
    - cbn [no_cycles]. rewrite (Hs : rd g s = Some h). cbn [mbind option_bind].
      destruct (mark_ext g s h d Hs Hv) as [He1 Hu1]. set (g1 := <[s := mark d h]> g) in *.
      assert (Hsl : s < length g) by (by eapply lookup_lt_Some).
      assert (HDs : Dp g1 s d). { exists (mark d h). split; [|done]. unfold g1. by rewrite list_lookup_insert. }
      assert (Hsh1 : sh g0 g1) by (by eapply ext_sh).
      destruct (lookup_lt_is_Some_2 g0 s) as [h0 Hh0]; [by rewrite (Forall2_length _ _ _ Hsh)|].
      destruct (sh_lookup _ _ _ _ Hsh Hh0) as (h' & Hh' & S1 & S2 & S3 & S4). assert (h' = h) as -> by congruence. clear Hh'.
      destruct (Hok s h0 Hh0) as (Hni & (k & Hk & Hno) & Hi & Ho). rewrite S1, S2, S3, S4, Hk.
      destruct (scan_ok (no_cycles f) f false (h_inputs h0) s d (n_in h0) IH 0 g1) as (b2 & g2 & E2 & He2 & Hb2); [lia| |done|done|lia|].
      { intros t j Ht Hj. assert (j ∈ ins h0). { apply elem_of_list_lookup. exists t. unfold ins. rewrite lookup_take by lia. done. }
        split; [by apply Hi|]. right. eauto. }
      rewrite E2. cbn [mbind option_bind fst snd]. destruct b2; [|exists false, g2; split; [done|]; split; [by eapply ext_trans|done]].
      destruct (Hb2 eq_refl) as [Hin Hn2].
      destruct (scan_ok (no_cycles f) f true (h_outputs h0) s d k IH 0 g2) as (b3 & g3 & E3 & He3 & Hb3);
        [lia| |by eapply ext_sh|by eapply ext_Dp|pose proof (ext_unv _ _ He2); lia|].
      { intros t j Ht Hj. assert (j ∈ outs h0). { apply elem_of_list_lookup. exists t. unfold outs. rewrite Hk. cbn. rewrite lookup_take by lia. done. }
        split; [by apply Ho|]. left. eauto. }
      rewrite E3. exists b3, g3. split; [done|]. assert (He13 : ext g1 g3) by (by eapply ext_trans). split; [by eapply ext_trans|]. intros Hb.
      destruct (Hb3 Hb) as [Hout Hn3]. assert (HDs3 : Dp g3 s d) by (by eapply ext_Dp). split; [done|]. intros x Hx Hn.
      destruct (decide (x = s)) as [->|Hxs].
      { split; [|done]. exists h0, d. split; [done|]. split; [done|]. split.
        - intros y Hy. apply elem_of_list_lookup in Hy as [t Ht]. unfold ins in Ht. pose proof (lookup_lt_Some _ _ _ Ht) as Hl. rewrite take_length in Hl.
          rewrite lookup_take in Ht by lia. destruct (Hin t y ltac:(lia) Ht) as (dy & Hdy & ?). exists dy. split; [exact (ext_Dp _ _ _ _ He3 Hdy)|done].
        - intros y Hy. apply elem_of_list_lookup in Hy as [t Ht]. unfold outs in Ht. rewrite Hk in Ht. cbn in Ht. pose proof (lookup_lt_Some _ _ _ Ht) as Hl. rewrite take_length in Hl.
          rewrite lookup_take in Ht by lia. destruct (Hout t y ltac:(lia) Ht) as (dy & Hdy & ?). exists dy. done. }
      assert (Hn1 : ~ V g1 x).
      { intros (dx & hx & Hhx & Hvx & _). unfold g1 in Hhx. rewrite list_lookup_insert_ne in Hhx by done. apply Hn. exists (depth hx), hx. done. }
      destruct (V_dec g2 x) as [H2|H2].
      { destruct (Hn2 x H2 Hn1) as [Hg Hr]. split; [exact (good_ext _ _ _ He3 Hg)|exact (rtc_ext _ _ _ _ He3 Hr)]. }
      apply Hn3; done.
  Qed.

  (** *** Graded graphs are accepted *)
  Definition rec_acc (rec : list handler -> nat -> Z -> option (bool * list handler)) (f : nat) (D : nat -> Z) : Prop :=
    forall g s h, sh g0 g -> g !! s = Some h -> visited h = false -> unv g <= f -> (forall x d, Dp g x d -> d = D x) ->
      exists g', rec g s (D s) = Some (true, g') /\ ext g g' /\ (forall x d, Dp g' x d -> d = D x).

  Lemma scan_acc rec f D (out : bool) arr s cnt : rec_acc rec f D -> (forall u v, edge g0 u v -> D v = (D u + 1)%Z) ->
    forall i g, i + cnt <= length arr ->
    (forall t j, i <= t < i + cnt -> arr !! t = Some j -> j < length g0 /\ if out then edge g0 s j else edge g0 j s) ->
    sh g0 g -> unv g <= f -> (forall x d, Dp g x d -> d = D x) ->
    exists g', scan rec out arr (D s) cnt i g = Some (true, g') /\ ext g g' /\ (forall x d, Dp g' x d -> d = D x).
  Proof using Type.
    intros Hrec HD. induction cnt as [|cnt IH]; intros i g Hlen Harr Hsh Hun Hg; cbn [scan].
    - exists g. split; [done|]. split; [apply ext_refl|done].
    - destruct (lookup_lt_is_Some_2 arr i) as [j Hj]; [lia|]. rewrite (Hj : rd arr i = Some j). cbn [mbind option_bind].
      destruct (Harr i j ltac:(lia) Hj) as [Hjl Hje]. destruct (lookup_lt_is_Some_2 g j) as [h Hh].
      { by rewrite <- (Forall2_length _ _ _ Hsh). }
      rewrite (Hh : rd g j = Some h). cbn [mbind option_bind].
      assert (HDj : D j = if out then (D s + 1)%Z else (D s - 1)%Z). { destruct out; [by apply HD|]. apply HD in Hje. lia. }
      destruct (visited h) eqn:Hv.
      + assert (E : depth h = D j) by (apply Hg; exists h; done). rewrite E, HDj.
        replace (if out then ((if out then D s + 1 else D s - 1) <? D s)%Z else (D s <? (if out then D s + 1 else D s - 1))%Z) with false by (destruct out; lia).
        destruct (IH (S i) g) as (g' & E1 & He & Hb); [lia|intros t j' Ht; apply Harr; lia|done|done|done|]. exists g'. done.
      + rewrite <- HDj. destruct (Hrec g j h Hsh Hh Hv Hun Hg) as (g1 & E & He & Hg1). rewrite E. cbn [mbind option_bind fst snd].
        destruct (IH (S i) g1) as (g' & E1 & He1 & Hb); [lia|intros t j' Ht; apply Harr; lia|by eapply ext_sh|pose proof (ext_unv _ _ He); lia|done|].
        exists g'. split; [done|]. split; [by eapply ext_trans|done].
  Qed.

  Lemma no_cycles_acc f D : (forall u v, edge g0 u v -> D v = (D u + 1)%Z) -> rec_acc (no_cycles f) f D.
  Proof using Hok.
    intros HD. induction f as [|f IH]; intros g s h Hsh Hs Hv Hun Hg.
    - exfalso. destruct (mark_ext g s h 0%Z Hs Hv). lia.
    - cbn [no_cycles]. rewrite (Hs : rd g s = Some h). cbn [mbind option_bind].
      destruct (mark_ext g s h (D s) Hs Hv) as [He1 Hu1]. set (g1 := <[s := mark (D s) h]> g) in *.
      assert (Hsl : s < length g) by (by eapply lookup_lt_Some).
      assert (Hsh1 : sh g0 g1) by (by eapply ext_sh).
      assert (Hg1 : forall x d, Dp g1 x d -> d = D x).
      { intros x d (hx & Hhx & Hvx & <-). unfold g1 in Hhx. destruct (decide (x = s)) as [->|].
        - rewrite list_lookup_insert in Hhx by done. by injection Hhx as <-.
        - rewrite list_lookup_insert_ne in Hhx by done. apply Hg. exists hx. done. }
      destruct (lookup_lt_is_Some_2 g0 s) as [h0 Hh0]; [by rewrite (Forall2_length _ _ _ Hsh)|].
      destruct (sh_lookup _ _ _ _ Hsh Hh0) as (h' & Hh' & S1 & S2 & S3 & S4). assert (h' = h) as -> by congruence. clear Hh'.
      destruct (Hok s h0 Hh0) as (Hni & (k & Hk & Hno) & Hi & Ho). rewrite S1, S2, S3, S4, Hk.
      destruct (scan_acc (no_cycles f) f D false (h_inputs h0) s (n_in h0) IH HD 0 g1) as (g2 & E2 & He2 & Hg2); [lia| |done|lia|done|].
      { intros t j Ht Hj. assert (j ∈ ins h0). { apply elem_of_list_lookup. exists t. unfold ins. rewrite lookup_take by lia. done. }
        split; [by apply Hi|]. right. eauto. }
      rewrite E2. cbn [mbind option_bind fst snd].
      destruct (scan_acc (no_cycles f) f D true (h_outputs h0) s k IH HD 0 g2) as (g3 & E3 & He3 & Hg3);
        [lia| |by eapply ext_sh|pose proof (ext_unv _ _ He2); lia|done|].
      { intros t j Ht Hj. assert (j ∈ outs h0). { apply elem_of_list_lookup. exists t. unfold outs. rewrite Hk. cbn. rewrite lookup_take by lia. done. }
        split; [by apply Ho|]. left. eauto. }
      rewrite E3. exists g3. split; [done|]. split; [|done]. eapply ext_trans; [done|]. by eapply ext_trans.
  Qed.
End graph.
