(** Proofs about the life cycle of a fully-connected layer *)
From Verif Require Import NumLib BaseLemmas Fn_Model Fn_Proofs Life_Model Life_Spec.
From Coq Require Import Reals Lia Lra.
Notation vec := (list R).
Open Scope nat_scope.

Section arrays.
  Context {K : Type} `{EqDecision K}.
  Definition fits (a : arrays K) (sz : K -> nat) : Prop := ∀ k v, a k = Some v -> length v = sz k.
  Definition copied (steps : list (cstep K)) (k : K) : bool := existsb (λ s, c_on s && bool_decide (c_key s = k)) steps.
  Lemma put_eq (a : arrays K) k v : put a k v k = Some v.
  Proof. unfold put. by rewrite decide_True. Qed.
  Lemma put_ne (a : arrays K) k k' v : k' <> k -> put a k v k' = a k'.
  Proof. intros. unfold put. by rewrite decide_False. Qed.
  Lemma copies_ok sz steps : ∀ src dst, Forall (λ s, c_cnt s = sz (c_key s)) steps -> fits src sz -> fits dst sz ->
    ∃ d, copies src steps dst = Some d /\ ∀ k, d k = match src k, dst k with Some a, Some b => Some (if copied steps k then a else b) | _, x => x end.
  Proof.
    induction steps as [|s steps IH]; intros src dst Hst Hs Hd.
    - exists dst. split; [done|]. intros k. cbn. destruct (src k), (dst k); done.
    - apply list.Forall_cons in Hst as [Hc Hst]. cbn [copies].
      assert (∃ d, copy_step src s dst = Some d /\ fits d sz /\ ∀ k, d k = match src k, dst k with Some a, Some b => Some (if c_on s && bool_decide (c_key s = k) then a else b) | _, x => x end) as (d & -> & Hf & Hk).
      { unfold copy_step. destruct (c_on s); cbn [negb andb].
        2: { exists dst. split; [done|]. split; [done|]. intros k. destruct (src k), (dst k); done. }
        destruct (src (c_key s)) as [v|] eqn:Ev; [destruct (dst (c_key s)) as [w|] eqn:Ew|].
        - rewrite decide_True by (rewrite Hc, (Hs _ _ Ev), (Hd _ _ Ew); lia). rewrite take_ge, drop_ge, app_nil_r by (rewrite Hc, ?(Hs _ _ Ev), ?(Hd _ _ Ew); lia).
          eexists. split; [done|]. split.
          + intros k x. destruct (decide (k = c_key s)) as [->|]; [rewrite put_eq; intros [= <-]; by apply Hs|]. rewrite put_ne by done. apply Hd.
          + intros k. destruct (decide (k = c_key s)) as [->|]; [rewrite put_eq, Ev, Ew; by rewrite bool_decide_eq_true_2|]. rewrite put_ne by done. rewrite bool_decide_eq_false_2 by done. destruct (src k), (dst k); done.
        - exists dst. split; [done|]. split; [done|]. intros k. destruct (decide (k = c_key s)) as [->|]; [by rewrite Ev, Ew|]. rewrite bool_decide_eq_false_2 by done. destruct (src k), (dst k); done.
        - exists dst. split; [done|]. split; [done|]. intros k. destruct (decide (k = c_key s)) as [->|]; [by rewrite Ev|]. rewrite bool_decide_eq_false_2 by done. destruct (src k), (dst k); done. }
      cbn [mbind option_bind]. destruct (IH src d Hst Hs Hf) as (d' & E & Hk'). exists d'. split; [done|]. intros k. rewrite Hk', Hk. cbn [copied existsb]. fold (copied steps k).
      destruct (src k), (dst k); try done. destruct (c_on s && bool_decide (c_key s = k)), (copied steps k); done.
  Qed.
  Fixpoint filled (steps : list (fstep K)) (k : K) : option R :=
    match steps with [] => None | s :: r => match filled r k with Some v => Some v | None => if f_on s && bool_decide (f_key s = k) then Some (f_val s) else None end end.
  Definition after_fill (steps : list (fstep K)) (sz : K -> nat) (a : arrays K) (k : K) : option vec :=
    match a k with None => None | Some w => Some (match filled steps k with Some v => repeat v (sz k) | None => w end) end.
  Lemma fills_ok sz steps : ∀ a, Forall (λ s, f_cnt s = sz (f_key s)) steps -> fits a sz -> Forall (λ s, f_on s = true -> f_guarded s = false -> a (f_key s) <> None) steps ->
    ∃ a', fills steps a = Some a' /\ fits a' sz /\ ∀ k, a' k = after_fill steps sz a k.
  Proof.
    unfold after_fill. induction steps as [|s steps IH]; intros a Hst Ha Hg.
    - exists a. split; [done|]. split; [done|]. intros k. cbn. destruct (a k); done.
    - apply list.Forall_cons in Hst as [Hc Hst]. apply list.Forall_cons in Hg as [Hg0 Hg]. cbn [fills].
      assert (∃ d, fill_step s a = Some d /\ fits d sz /\ ∀ k, d k = match a k with None => None | Some w => Some (if f_on s && bool_decide (f_key s = k) then repeat (f_val s) (sz k) else w) end) as (d & -> & Hf & Hk).
      { unfold fill_step. destruct (f_on s); cbn [negb andb].
        2: { exists a. split; [done|]. split; [done|]. intros k. destruct (a k); done. }
        destruct (a (f_key s)) as [v|] eqn:Ev.
        - rewrite decide_True by (rewrite Hc, (Ha _ _ Ev); lia). rewrite drop_ge, app_nil_r by (rewrite Hc, (Ha _ _ Ev); lia). eexists. split; [done|]. split.
          + intros k x. destruct (decide (k = f_key s)) as [->|]; [rewrite put_eq; intros [= <-]; by rewrite repeat_length|]. rewrite put_ne by done. apply Ha.
          + intros k. destruct (decide (k = f_key s)) as [->|]; [rewrite put_eq, Ev, Hc; by rewrite bool_decide_eq_true_2|]. rewrite put_ne by done. rewrite bool_decide_eq_false_2 by done. destruct (a k); done.
        - destruct (f_guarded s) eqn:Eg; [|by destruct Hg0]. exists a. split; [done|]. split; [done|]. intros k. destruct (decide (k = f_key s)) as [->|]; [by rewrite Ev|].
          rewrite bool_decide_eq_false_2 by done. destruct (a k); done. }
      cbn [mbind option_bind]. destruct (IH d Hst Hf) as (a' & E & Hf' & Hk').
      { eapply list.Forall_impl; [exact Hg|]. cbn. intros x Hx H1 H2. rewrite Hk. specialize (Hx H1 H2). destruct (a (f_key x)); done. }
      exists a'. split; [done|]. split; [done|]. intros k. rewrite Hk', Hk. cbn [filled]. destruct (a k); [|done]. f_equal. destruct (filled steps k); [done|]. destruct (f_on s && bool_decide (f_key s = k)); done.
  Qed.
  Lemma fills_none (steps : list (fstep K)) : ∀ (a : arrays K) (s : fstep K), s ∈ steps -> f_on s = true -> f_guarded s = false -> a (f_key s) = None -> fills steps a = None.
  Proof.
    induction steps as [|s0 steps IH]; intros a s Hin Hon Hg Hn; [by apply elem_of_nil in Hin|]. cbn [fills]. apply elem_of_cons in Hin as [<-|Hin].
    - unfold fill_step. by rewrite Hon, Hn, Hg.
    - unfold fill_step. destruct (f_on s0); cbn [negb].
      + destruct (a (f_key s0)) as [v|] eqn:Ev; [destruct (decide _)|destruct (f_guarded s0)]; cbn [mbind option_bind]; try done; (eapply IH; [exact Hin|done|done|]).
        * destruct (decide (f_key s = f_key s0)) as [Ek|]; [congruence|]. by rewrite put_ne.
        * done.
      + cbn [mbind option_bind]. by eapply IH.
  Qed.
  Lemma filled_app (l l' : list (fstep K)) (k : K) : filled (l ++ l') k = match filled l' k with Some v => Some v | None => filled l k end.
  Proof. induction l as [|s l IH]; cbn; [by destruct (filled l' k)|]. rewrite IH. destruct (filled l' k); done. Qed.
  Lemma filled_none (l : list (fstep K)) (k : K) : Forall (λ s, f_key s <> k) l -> filled l k = None.
  Proof. induction l as [|s l IH]; intros H; [done|]. apply list.Forall_cons in H as [H1 H2]. cbn. rewrite IH by done. rewrite bool_decide_eq_false_2 by done. by rewrite andb_false_r. Qed.
End arrays.

(** the layer normalization *)
Definition bsz (b : bn) (k : bfld) : nat := vdim b.
Lemma bn_fits b : bn_shaped b -> fits (b_arr b) (bsz b).
Proof.
  intros (_ & _ & H) k v E. specialize (H k). destruct k; try (destruct H as (x & Hx & Hl); rewrite E in Hx; injection Hx as <-; exact Hl).
  destruct (decide _); [|congruence]. destruct H as (x & Hx & Hl). rewrite E in Hx. injection Hx as <-. exact Hl.
Qed.
Lemma bn_some b k : bn_shaped b -> (∀ m i, k = Row m i -> i < batch b) -> b_arr b k <> None.
Proof.
  intros (_ & _ & H) Hr. specialize (H k). destruct k; try (destruct H as (x & Hx & _); congruence). rewrite decide_True in H by (by eapply Hr). destruct H as (x & Hx & _). congruence.
Qed.
Lemma new_bn_shaped n d : 0 < n -> 0 < d -> ∃ b, batch_normalization n d = Some b /\ bn_shaped b /\ batch b = n /\ vdim b = d /\ b_mode b = Gradient.
Proof.
  intros Hn Hd. unfold batch_normalization. rewrite decide_False by lia. eexists. split; [done|]. split; [|done]. split; [done|]. split; [done|].
  intros k. destruct k as [ |o| |o| | | |m i]; cbn [b_arr vdim batch]; unfold zeros; try (eexists; split; [done|]; apply repeat_length).
  destruct (decide (i < n)); [|done]. eexists; split; [done|]; apply repeat_length.
Qed.
Lemma bn_shaped_same b b' : bn_shaped b -> batch b' = batch b -> vdim b' = vdim b -> fits (b_arr b') (bsz b) -> (∀ k, b_arr b' k = None <-> b_arr b k = None) -> bn_shaped b'.
Proof.
  intros (H1 & H2 & H) Eb Ev Hf Hn. split; [lia|]. split; [lia|]. intros k. specialize (H k). rewrite Eb, Ev.
  assert (Hs : sized (b_arr b k) (vdim b) -> sized (b_arr b' k) (vdim b)).
  { intros (x & Hx & _). destruct (b_arr b' k) as [y|] eqn:Ey; [exists y; split; [done|by apply Hf in Ey]|]. apply Hn in Ey. congruence. }
  destruct k; try (by apply Hs). destruct (decide _); [by apply Hs|]. by apply Hn.
Qed.
Lemma paste_bn_ok b1 b2 : bn_shaped b1 -> bn_shaped b2 -> vdim b1 = vdim b2 ->
  ∃ b, paste_bn b1 b2 = Some b /\ bn_shaped b /\ batch b = batch b2 /\ vdim b = vdim b2 /\ b_mode b = b_mode b2 /\
    (∀ k, bn_kept k -> b_arr b k = b_arr b1 k) /\ (∀ k, ~ bn_kept k -> b_arr b k = b_arr b2 k).
Proof.
  intros H1 H2 Ev. unfold paste_bn.
  destruct (copies_ok (bsz b1) (paste_bn_steps (vdim b1)) (b_arr b1) (b_arr b2)) as (d & -> & Hk); [by repeat constructor|by apply bn_fits| |].
  { intros k v E. unfold bsz. rewrite Ev. by eapply (bn_fits b2). }
  cbn [mbind option_bind]. eexists. split; [done|].
  assert (Hkept : ∀ k, bn_kept k -> d k = b_arr b1 k).
  { intros k Hkk. rewrite Hk. pose proof (bn_some b1 k H1 ltac:(intros m i ->; done)) as N1. pose proof (bn_some b2 k H2 ltac:(intros m i ->; done)) as N2.
    destruct (b_arr b1 k), (b_arr b2 k); try done. assert (copied (paste_bn_steps (vdim b1)) k = true) as -> by (destruct k as [ |[]| |[]| | | |]; done || destruct Hkk). done. }
  assert (Hnk : ∀ k, ~ bn_kept k -> d k = b_arr b2 k).
  { intros k Hkk. rewrite Hk. assert (copied (paste_bn_steps (vdim b1)) k = false) as -> by (destruct k as [ |[]| |[]| | | |]; try done; exfalso; by apply Hkk). destruct (b_arr b1 k), (b_arr b2 k); done. }
  split; [|done]. apply (bn_shaped_same b2); try done; cbn [b_arr].
  - intros k v. rewrite Hk. destruct (b_arr b1 k) as [x|] eqn:E1; [destruct (b_arr b2 k) as [y|] eqn:E2|]; [|done|intros E; by eapply (bn_fits b2)].
    match goal with |- context [copied ?l k] => destruct (copied l k) end; intros [= <-]; [unfold bsz; rewrite <- Ev; by eapply (bn_fits b1)|by eapply (bn_fits b2)].
  - intros k. rewrite Hk. destruct (b_arr b1 k), (b_arr b2 k); done.
Qed.
Lemma paste_w_bn_ok b1 b2 : bn_shaped b1 -> bn_shaped b2 -> vdim b1 = vdim b2 ->
  ∃ b, paste_w_bn b1 b2 = Some b /\ batch b = batch b2 /\ vdim b = vdim b2 /\ b_mode b = b_mode b2 /\
    b_arr b Gamma = b_arr b1 Gamma /\ b_arr b Beta = b_arr b1 Beta /\ (∀ k, k <> Gamma -> k <> Beta -> b_arr b k = b_arr b2 k).
Proof.
  intros H1 H2 Ev. unfold paste_w_bn.
  destruct (copies_ok (bsz b1) (map (λ k, Cp true k (vdim b1)) [Gamma; Beta]) (b_arr b1) (b_arr b2)) as (d & -> & Hk); [by repeat constructor|by apply bn_fits| |].
  { intros k v E. unfold bsz. rewrite Ev. by eapply (bn_fits b2). }
  cbn [mbind option_bind]. eexists. split; [done|]. do 3 (split; [done|]). cbn [b_arr].
  assert (Hgb : ∀ k, k = Gamma \/ k = Beta -> d k = b_arr b1 k).
  { intros k Hkk. rewrite Hk. pose proof (bn_some b1 k H1 ltac:(intros m i ->; destruct Hkk; done)) as N1. pose proof (bn_some b2 k H2 ltac:(intros m i ->; destruct Hkk; done)) as N2.
    destruct (b_arr b1 k), (b_arr b2 k); try done. destruct Hkk as [-> | ->]; done. }
  split; [apply Hgb; by left|]. split; [apply Hgb; by right|].
  intros k N1 N2. rewrite Hk. assert (copied (map (λ k, Cp true k (vdim b1)) [Gamma; Beta]) k = false) as ->; [|destruct (b_arr b1 k), (b_arr b2 k); done].
  cbn. rewrite !bool_decide_eq_false_2 by done. done.
Qed.
Lemma copy_bn_ok b : bn_shaped b ->
  ∃ c, copy_bn b = Some c /\ bn_shaped c /\ batch c = batch b /\ vdim c = vdim b /\ b_mode c = b_mode b /\ (∀ k, bn_kept k -> b_arr c k = b_arr b k).
Proof.
  intros H. pose proof H as (Hb & Hv & _). unfold copy_bn. destruct (new_bn_shaped (batch b) (vdim b) Hb Hv) as (c & -> & Hc & Ec & Ev & _). cbn [mbind option_bind].
  match goal with |- context [copies _ ?l _] => set (st := l); destruct (copies_ok (bsz b) st (b_arr b) (b_arr c)) as (d & -> & Hk) end; [by repeat constructor|by apply bn_fits| |].
  { intros k v E. unfold bsz. rewrite <- Ev. by eapply (bn_fits c). }
  cbn [mbind option_bind]. eexists. split; [done|]. split; [|do 3 (split; [done|])].
  - apply (bn_shaped_same c); try done; cbn [b_arr].
    + intros k v. rewrite Hk. destruct (b_arr b k) as [x|] eqn:E1; [destruct (b_arr c k) as [y|] eqn:E2|]; [|done|intros E; by eapply (bn_fits c)].
      match goal with |- context [copied ?l k] => destruct (copied l k) end; intros [= <-]; [unfold bsz; rewrite Ev; by eapply (bn_fits b)|by eapply (bn_fits c)].
    + intros k. rewrite Hk. destruct (b_arr b k), (b_arr c k); done.
  - cbn [b_arr]. intros k Hkk. rewrite Hk. pose proof (bn_some b k H ltac:(intros m i ->; done)) as N1. pose proof (bn_some c k Hc ltac:(intros m i ->; done)) as N2.
    destruct (b_arr b k), (b_arr c k); try done. assert (copied st k = true) as -> by (destruct k as [ |[]| |[]| | | |]; done || destruct Hkk). done.
Qed.
Lemma row_filled b n : ∀ s k, filled (flat_map (λ i, [Fl true false (Row Input_vectors i) (vdim b) 0%R; Fl true false (Row Temp_vectors i) (vdim b) 0%R; Fl true false (Row Outputs i) (vdim b) 0%R;
    Fl true true (Row Error2_b i) (vdim b) 0%R; Fl true true (Row Temp1 i) (vdim b) 0%R]) (seq s n)) k =
  match k with Row _ i => if decide (s <= i < s + n) then Some 0%R else None | _ => None end.
Proof.
  induction n as [|n IH]; intros s k; cbn [seq flat_map].
  - destruct k as [ |o| |o| | | |m i]; try done. by rewrite decide_False by lia.
  - rewrite filled_app, IH. destruct k as [ |o| |o| | | |m i]; try (cbn; done).
    destruct (decide (S s <= i < S s + n)); [rewrite decide_True by lia; done|].
    destruct (decide (i = s)) as [->|Hne].
    + rewrite decide_True by lia. destruct m; cbn [filled f_on f_key f_val andb]; repeat case_bool_decide; congruence.
    + rewrite decide_False by lia. apply filled_none. repeat constructor; cbn; congruence.
Qed.
Definition bn_reset_value (keep_d : bool) (b : bn) (k : bfld) : option vec :=
  match k with
  | Gamma | Beta | DGamma (o1 | o2 | o3) | DBeta (o1 | o2 | o3) => b_arr b k
  | DGamma o0 | DBeta o0 => if keep_d then b_arr b k else Some (zeros (vdim b))
  | Mean | Var | Temp2_b => Some (zeros (vdim b))
  | Row _ i => if decide (i < batch b) then Some (zeros (vdim b)) else None
  end.
Lemma bn_reset_gen (steps : list (fstep bfld)) (kd : bool) b : bn_shaped b ->
  Forall (λ s, f_cnt s = vdim b) steps -> (∀ m i, Forall (λ s, f_key s <> Row m i) steps) ->
  (∀ k, (∀ m i, k <> Row m i) -> match filled steps k with Some v => Some (repeat v (vdim b)) | None => b_arr b k end = bn_reset_value kd b k) ->
  ∃ a, fills (row_fills b ++ steps) (b_arr b) = Some a /\ ∀ k, a k = bn_reset_value kd b k.
Proof.
  intros H Hc Hr Hv. destruct (fills_ok (bsz b) (row_fills b ++ steps) (b_arr b)) as (a & E & _ & Hk).
  - apply list.Forall_app. split; [|exact Hc]. unfold row_fills. apply list.Forall_forall. intros s Hs. apply elem_of_list_In, in_flat_map in Hs as (i & _ & Hs). cbn in Hs. repeat (destruct Hs as [<-|Hs]; [done|]). done.
  - by apply bn_fits.
  - apply list.Forall_app. split.
    + unfold row_fills. apply list.Forall_forall. intros s Hs _ _. apply elem_of_list_In, in_flat_map in Hs as (i & Hi & Hs). apply in_seq in Hi. apply bn_some; [done|]. intros m j Ek. cbn in Hs. repeat (destruct Hs as [<-|Hs]; [injection Ek as <- <-; lia|]). done.
    + apply list.Forall_forall. intros s Hs _ _. apply bn_some; [done|]. intros m i Ek. specialize (Hr m i). rewrite list.Forall_forall in Hr. by destruct (Hr s Hs).
  - exists a. split; [exact E|]. intros k. rewrite Hk. unfold after_fill, bsz. rewrite filled_app. unfold row_fills. rewrite row_filled.
    destruct (decide (∃ m i, k = Row m i)) as [(m & i & ->)|Hn] || (assert (Hd : (∃ m i, k = Row m i) \/ ∀ m i, k <> Row m i) by (destruct k; try (right; done); left; eauto); destruct Hd as [(m & i & ->)|Hn]).
    + rewrite (filled_none steps) by apply Hr. cbn [bn_reset_value]. destruct H as (_ & _ & H). specialize (H (Row m i)). cbn in H.
      destruct (decide (i < batch b)) as [Hi|Hi]; [rewrite decide_True by lia; destruct H as (x & -> & _); done|rewrite H; done].
    + rewrite <- Hv by done. pose proof (bn_some b k H ltac:(intros m i ->; by destruct (Hn m i))) as Hs. destruct (b_arr b k); [|done].
      assert (Er : match k with Row _ i => if decide (0 <= i < 0 + batch b) then Some 0%R else None | _ => None end = None) by (destruct k as [ |o| |o| | | |m i]; try done; by destruct (Hn m i)).
      rewrite Er. destruct (filled steps k); done.
Qed.
Lemma reset_bn_ok b : bn_shaped b -> ∃ b', reset_bn b = Some b' /\ batch b' = batch b /\ vdim b' = vdim b /\ b_mode b' = b_mode b /\ ∀ k, b_arr b' k = bn_reset_value false b k.
Proof.
  intros H. unfold reset_bn. match goal with |- context [fills (row_fills b ++ ?l) _] => destruct (bn_reset_gen l false b H) as (a & -> & Hk) end.
  - by repeat constructor.
  - intros m i. repeat constructor; done.
  - intros k Hn. destruct k as [ |[]| |[]| | | |m i]; try done. by destruct (Hn m i).
  - cbn. eexists. split; [done|]. done.
Qed.
Lemma reset_bn_except_ok b : bn_shaped b -> ∃ b', reset_bn_except_partial_derivatives b = Some b' /\ batch b' = batch b /\ vdim b' = vdim b /\ b_mode b' = b_mode b /\ ∀ k, b_arr b' k = bn_reset_value true b k.
Proof.
  intros H. unfold reset_bn_except_partial_derivatives. match goal with |- context [fills (row_fills b ++ ?l) _] => destruct (bn_reset_gen l true b H) as (a & -> & Hk) end.
  - by repeat constructor.
  - intros m i. repeat constructor; done.
  - intros k Hn. destruct k as [ |[]| |[]| | | |m i]; try done. by destruct (Hn m i).
  - cbn. eexists. split; [done|]. done.
Qed.

(** the fully-connected layer *)
#[global] Instance has_dec c k : Decision (has c k).
Proof. destruct k; cbn; apply _. Defined.
#[global] Instance kept_dec k : Decision (kept k).
Proof. unfold kept. destruct k as [ | | | |[]|[]|[]|[]| |[]| | | | | | | | | | | | | ]; cbn; apply _. Defined.
Lemma shaped_fits f : shaped f -> fits (arr f) (fsize (cfg f)).
Proof.
  intros (H1 & H2 & _) k v E. destruct (decide (has (cfg f) k)) as [Hh|Hh]; [|rewrite H2 in E by done; done].
  destruct (H1 k Hh) as (x & Hx & Hl). rewrite E in Hx. by injection Hx as <-.
Qed.
Lemma config_eta c : mk_config (input c) (output c) (layer c) (dropout_flag c) (activation c) (dropout_threshold c) (n_groups c) (normalization_flag c) (training_mode c) (feed_forward_flag c) (noisy c) = c.
Proof. by destruct c. Qed.
Lemma fc_ok c ws nw g : admissible c -> ∃ f, fully_connected c ws nw g = Some f /\ cfg f = c /\ k_percentage f = 1%R /\ shaped f /\
  (∀ k, has c k -> scratch k -> arr f k = Some (repeat (if decide (k = Dropout_mask) then 1%R else 0%R) (fsize c k))) /\
  active f = Some (repeat 1 (output c)) /\ (has c Scores -> indices f = Some (seq 0 (input c * output c))) /\
  (∀ b, layer_norm f = Some b -> b_mode b = Gradient).
Proof.
  intros [Hok Hg]. unfold fully_connected. rewrite (decide_False (P := normalization_flag c = Group_norm)) by done. rewrite config_eta. cbv zeta. rewrite decide_True by done.
  pose proof Hok as (Hi & Ho & _ & Hff & Hln & _ & _).
  destruct (noise_ok g (input c) (output c) (zeros (input c * output c)) (zeros (output c))) as (cnt & nz & nb & -> & L1 & L2 & _); [lia|apply repeat_length|apply repeat_length|].
  unfold zeros in L1. rewrite repeat_length in L1. cbn [mbind option_bind].
  assert (∃ ln, (if decide (normalization_flag c = Layer_norm) then b ← batch_normalization (n_groups c) (output c / n_groups c); Some (Some b) else Some None) = Some ln /\
    (normalization_flag c = Layer_norm -> ∃ b, ln = Some b /\ bn_shaped b /\ batch b = n_groups c /\ vdim b = output c / n_groups c) /\ (normalization_flag c <> Layer_norm -> ln = None) /\
    ∀ b, ln = Some b -> b_mode b = Gradient) as (ln & -> & Hl1 & Hl2 & Hl3).
  { destruct (decide (normalization_flag c = Layer_norm)) as [E|E]; [|by exists None].
    destruct (Hln E) as (G1 & G2 & G3). destruct (new_bn_shaped (n_groups c) (output c / n_groups c)) as (b & -> & Hb & Eb & Ev & Em); [done|apply Nat.div_str_pos; lia|].
    exists (Some b). split; [done|]. split; [intros _; eauto|]. split; [done|]. by intros ? [= <-]. }
  cbn [mbind option_bind]. eexists. split; [done|]. cbn [cfg k_percentage arr active indices layer_norm]. split; [done|]. split; [done|].
  split; [|split; [|split; [done|split; [|done]]]].
  - repeat split; cbn [cfg arr active indices layer_norm]; try done.
    + intros k Hk. destruct k; cbn [has fsize] in *; unfold zeros; rewrite ?bool_decide_eq_true_2 by tauto; rewrite ?Hk; rewrite ?(proj2 Hk); cbn [andb]; eexists; (split; [done|]); rewrite ?map_length, ?seq_length, ?repeat_length; done.
    + intros k Hk. destruct k; cbn [has fsize] in *; try (by destruct Hk); try (rewrite ?bool_decide_eq_false_2 by tauto; try done; destruct (noisy c); done);
        try (destruct (noisy c); done); try (destruct (activation c); done);
        (destruct (noisy c); [|by rewrite andb_false_r]; rewrite bool_decide_eq_false_2 by tauto; done).
    + eexists. split; [done|]. apply repeat_length.
    + intros Hs. cbn in Hs. rewrite bool_decide_eq_true_2 by done. eexists. split; [done|]. apply seq_length.
    + intros Hs. cbn in Hs. by rewrite bool_decide_eq_false_2 by done.
  - intros k Hk (Hs & N1 & N2). destruct k as [ | | | |[]|[]|[]|[]| |[]| | | | | | | | | | | | | ]; try (exfalso; apply Hs; unfold kept; cbn; tauto); try done; cbn [has fsize] in *; unfold zeros;
      rewrite ?bool_decide_eq_true_2 by tauto; rewrite ?Hk; done.
  - intros Hs. cbn in Hs. by rewrite bool_decide_eq_true_2 by done.
Qed.
Definition copy_steps (c : config) (p d e nsy : bool) : list (cstep fld) := (if p then param_steps c nsy else []) ++ d_steps c d nsy ++ score_steps c e.
Lemma copy_steps_size c p d e nsy : Forall (λ s, c_cnt s = fsize c (c_key s)) (copy_steps c p d e nsy).
Proof. unfold copy_steps. destruct p; repeat constructor; cbn; lia. Qed.
Lemma copied_kept c p d e nsy k : copied (copy_steps c p d e nsy) k =
  match k with
  | Weights | Biases => p | Noisy_weights | Noisy_biases => p && nsy
  | DWeights _ | DBiases _ => d | DNoisy_weights _ | DNoisy_biases _ => d && nsy | Scores | DScores _ => e | _ => false end.
Proof. unfold copy_steps, copied. destruct k as [ | | | |[]|[]|[]|[]| |[]| | | | | | | | | | | | | ], p, d, e, nsy; reflexivity. Qed.
(** what copying needs: arrays of the right size or NULL *)
Definition usable (f : fcl) : Prop :=
  let c := cfg f in fits (arr f) (fsize c) /\ (∃ l, active f = Some l /\ length l = output c) /\ (∀ l, indices f = Some l -> length l = input c * output c) /\
  (normalization_flag c = Layer_norm -> ∃ b, layer_norm f = Some b /\ bn_shaped b /\ batch b = n_groups c /\ vdim b = output c / n_groups c).
Lemma shaped_usable f : shaped f -> usable f.
Proof.
  intros H. split; [by apply shaped_fits|]. destruct H as (_ & _ & H3 & H4 & H5 & H6 & _). split; [done|]. split; [|done].
  intros l El. destruct (decide (has (cfg f) Scores)) as [Hs|Hs]; [destruct (H4 Hs) as (l' & E & L); congruence|rewrite H5 in El; done].
Qed.
Lemma copy_ints_ok n src dst : (∀ l, src = Some l -> length l = n) -> (∀ l, dst = Some l -> length l = n) ->
  copy_ints n src dst = Some (match src, dst with Some a, Some _ => Some a | _, x => x end).
Proof.
  intros H1 H2. unfold copy_ints. destruct src as [a|], dst as [b|]; try done. rewrite decide_True by (rewrite (H1 a), (H2 b) by done; lia).
  by rewrite take_ge, drop_ge, app_nil_r by (rewrite ?(H1 a), ?(H2 b) by done; lia).
Qed.
Lemma fits_copied (src dst d : arrays fld) steps sz : fits src sz -> fits dst sz ->
  (∀ k, d k = match src k, dst k with Some a, Some b => Some (if copied steps k then a else b) | _, x => x end) -> fits d sz /\ ∀ k, d k = None <-> dst k = None.
Proof.
  intros H1 H2 Hk. split.
  - intros k v. rewrite Hk. destruct (src k) eqn:E1; [destruct (dst k) eqn:E2|]; [destruct (copied steps k); intros [= <-]; [by apply H1|by apply H2]|done|apply H2].
  - intros k. rewrite Hk. destruct (src k), (dst k); done.
Qed.
Lemma shaped_same f f' : shaped f -> cfg f' = cfg f -> fits (arr f') (fsize (cfg f)) -> (∀ k, arr f' k = None <-> arr f k = None) ->
  (∃ l, active f' = Some l /\ length l = output (cfg f)) -> (∀ l, indices f' = Some l -> length l = input (cfg f) * output (cfg f)) -> (indices f' = None <-> indices f = None) ->
  (normalization_flag (cfg f) = Layer_norm -> ∃ b, layer_norm f' = Some b /\ bn_shaped b /\ batch b = n_groups (cfg f) /\ vdim b = output (cfg f) / n_groups (cfg f)) ->
  (normalization_flag (cfg f) <> Layer_norm -> layer_norm f' = None) -> shaped f'.
Proof.
  intros (H1 & H2 & H3 & H4 & H5 & H6 & H7) Ec Hf Hn Ha Hi Hin Hl Hl'. unfold shaped. rewrite Ec. split; [|split; [|split; [done|split; [|split; [|done]]]]].
  - intros k Hk. destruct (arr f' k) as [v|] eqn:E; [exists v; split; [done|by apply Hf]|]. apply Hn in E. destruct (H1 k Hk) as (x & Hx & _). congruence.
  - intros k Hk. apply Hn. by apply H2.
  - intros Hk. destruct (H4 Hk) as (l & El & _). destruct (indices f') as [l'|] eqn:E; [exists l'; split; [done|by apply Hi]|]. rewrite (proj1 Hin eq_refl) in El. done.
  - intros Hk. apply Hin. by apply H5.
Qed.
Lemma copy_fcl_gen f ws nw g : admissible (cfg f) -> usable f -> ∃ fresh cp, fully_connected (cfg f) ws nw g = Some fresh /\ copy_fcl f ws nw g = Some cp /\
  cfg cp = cfg f /\ k_percentage cp = k_percentage f /\ shaped cp /\ active cp = active f /\
  (has (cfg f) Scores -> indices f <> None -> indices cp = indices f) /\
  (∀ k, kept k -> has (cfg f) k -> arr f k <> None -> arr cp k = arr f k) /\
  (∀ k, ~ kept k \/ arr f k = None -> arr cp k = arr fresh k) /\
  (normalization_flag (cfg f) = Layer_norm -> ∃ b b', layer_norm f = Some b /\ layer_norm cp = Some b' /\ b_mode b' = Gradient /\ ∀ k, bn_kept k -> b_arr b' k = b_arr b k).
Proof.
  intros Hadm (Hfit & (al & Ha & La) & Hind & Hln). destruct (fc_ok (cfg f) ws nw g Hadm) as (fr & E & Ec & Ek & Hsh & _ & Eact & _ & Hmode). exists fr.
  assert (Hff : feed_forward_flag (cfg f) <> Only_dropout) by apply Hadm.
  unfold copy_fcl. rewrite E. cbn [mbind option_bind]. set (c := cfg f) in *.
  assert (Hp : exists_params c = true) by (unfold exists_params; by rewrite bool_decide_eq_true_2).
  pose proof (shaped_fits fr Hsh) as Hfr. rewrite Ec in Hfr.
  pose proof (copies_ok (fsize c) (copy_steps c (exists_params c) (exists_d_params c) (exists_edge_popup_stuff c) (noisy c)) (arr f) (arr fr) (copy_steps_size _ _ _ _ _) Hfit Hfr) as (d & Ed & Hd).
  unfold copy_steps in Ed. rewrite Ed. cbn [mbind option_bind]. destruct (fits_copied _ _ _ _ _ Hfit Hfr Hd) as [Hdf Hdn].
  rewrite Hp. rewrite (copy_ints_ok (output c)); [|intros l El; congruence|intros l El; rewrite Eact in El; injection El as <-; apply repeat_length]. rewrite Ha, Eact. cbn [mbind option_bind].
  pose proof (shaped_usable fr Hsh) as (_ & _ & Hfind & Hfln). rewrite Ec in Hfind, Hfln.
  assert (∃ ind, (if exists_edge_popup_stuff c then copy_ints (input c * output c) (indices f) (indices fr) else Some (indices fr)) = Some ind /\
    (∀ l, ind = Some l -> length l = input c * output c) /\ (ind = None <-> indices fr = None) /\ (has c Scores -> indices f <> None -> ind = indices f)) as (ind & -> & Hi1 & Hi2 & Hi3).
  { destruct (exists_edge_popup_stuff c) eqn:Ee.
    - rewrite copy_ints_ok by done. eexists. split; [done|]. destruct (indices f) as [x|] eqn:E1; [|by split].
      destruct (indices fr) as [y|] eqn:E2; [split; [intros l [= <-]; by apply Hind|done]|]. split; [done|]. split; [done|]. intros Hs _. destruct Hsh as (_ & _ & _ & Hx & _). rewrite Ec in Hx. destruct (Hx Hs) as (l & El & _). congruence.
    - exists (indices fr). split; [done|]. split; [done|]. split; [done|]. intros Hs. unfold exists_edge_popup_stuff in Ee. apply bool_decide_eq_false in Ee. cbn in Hs. tauto. }
  cbn [mbind option_bind].
  assert (∃ ln, (if decide (normalization_flag c = Layer_norm) then match layer_norm f, layer_norm fr with Some b1, Some b2 => b ← paste_bn b1 b2; Some (Some b) | _, _ => Some (layer_norm fr) end else Some (layer_norm fr)) = Some ln /\
    (normalization_flag c = Layer_norm -> ∃ b b', layer_norm f = Some b /\ ln = Some b' /\ bn_shaped b' /\ batch b' = n_groups c /\ vdim b' = output c / n_groups c /\ b_mode b' = Gradient /\ ∀ k, bn_kept k -> b_arr b' k = b_arr b k) /\
    (normalization_flag c <> Layer_norm -> ln = None)) as (ln & -> & Hl1 & Hl2).
  { destruct (decide (normalization_flag c = Layer_norm)) as [El|El].
    - destruct (Hln El) as (b1 & -> & Hb1 & B1 & V1). destruct (Hfln El) as (b2 & Eb2 & Hb2 & B2 & V2). rewrite Eb2. destruct (paste_bn_ok b1 b2 Hb1 Hb2) as (b & -> & Hb & Bb & Vb & Mb & Kb & _); [congruence|].
      cbn. eexists. split; [done|]. split; [|done]. intros _. exists b1, b. rewrite Mb, (Hmode b2) by done. repeat (split; [done || congruence|]). done.
    - eexists. split; [done|]. split; [done|]. intros _. destruct Hsh as (_ & _ & _ & _ & _ & _ & Hx). rewrite Ec in Hx. by apply Hx. }
  cbn [mbind option_bind]. eexists. split; [done|]. split; [done|]. cbn [cfg k_percentage arr active indices layer_norm]. split; [done|]. split; [done|]. split; [|split; [done|split; [done|split; [|split]]]].
  - apply (shaped_same fr); cbn [cfg arr active indices layer_norm]; rewrite ?Ec; try done; [eauto|]. intros El. destruct (Hl1 El) as (b & b' & _ & -> & H1 & H2 & H3 & _). eauto.
  - intros k Hk Hh Hn. rewrite Hd. destruct (arr f k) as [v|] eqn:Ev; [|done]. destruct (arr fr k) as [w|] eqn:Ew.
    2: { destruct Hsh as (Hx & _). rewrite Ec in Hx. destruct (Hx k Hh) as (x & Hxx & _). congruence. }
    rewrite copied_kept, Hp. destruct Hk as [Hk|[Hk|Hk]]; destruct k as [ | | | |[]|[]|[]|[]| |[]| | | | | | | | | | | | | ]; try destruct Hk; cbn [has] in Hh; cbn [andb];
      rewrite ?Hh; try done; unfold exists_d_params, exists_edge_popup_stuff; rewrite ?bool_decide_eq_true_2 by tauto; rewrite ?(proj2 Hh); done.
  - intros k Hk. rewrite Hd. destruct (arr f k) as [v|] eqn:Ev; [|done]. destruct Hk as [Hk|Hk]; [|done]. destruct (arr fr k); [|done].
    rewrite copied_kept. destruct k as [ | | | |[]|[]|[]|[]| |[]| | | | | | | | | | | | | ]; try done; exfalso; apply Hk; unfold kept; cbn; tauto.
  - intros El. destruct (Hl1 El) as (b & b' & H1 & H2 & _ & _ & _ & H3 & H4). exists b, b'. done.
Qed.
Lemma exists_d c : feed_forward_flag c <> Only_dropout -> exists_d_params c = bool_decide (has c (DWeights o0)).
Proof. intros H. unfold exists_d_params. apply bool_decide_ext. cbn. tauto. Qed.
Lemma exists_e c : feed_forward_flag c <> Only_dropout -> exists_edge_popup_stuff c = bool_decide (has c Scores).
Proof. intros H. unfold exists_edge_popup_stuff. apply bool_decide_ext. cbn. tauto. Qed.
Lemma exists_p c : feed_forward_flag c <> Only_dropout -> exists_params c = true.
Proof. intros H. unfold exists_params. by rewrite bool_decide_eq_true_2. Qed.
Lemma fsize_same c c2 k : input c = input c2 -> output c = output c2 -> fsize c k = fsize c2 k.
Proof. intros E1 E2. destruct k; cbn; congruence. Qed.
Lemma paste_size f cp : input (cfg f) <> input (cfg cp) \/ output (cfg f) <> output (cfg cp) -> 0 < output (cfg f) -> paste_fcl f cp = Some cp.
Proof.
  intros H Ho. unfold paste_fcl. destruct (decide (output (cfg f) <> output (cfg cp))) as [|Heq]; [done|]. rewrite decide_True; [done|].
  assert (Eo : output (cfg f) = output (cfg cp)) by (destruct (decide (output (cfg f) = output (cfg cp))); tauto). rewrite <- Eo. destruct H as [H|H]; [nia|done].
Qed.
Lemma paste_fcl_gen f cp : feed_forward_flag (cfg f) <> Only_dropout -> feed_forward_flag (cfg cp) <> Only_dropout -> shaped f -> shaped cp ->
  input (cfg f) = input (cfg cp) -> output (cfg f) = output (cfg cp) -> (normalization_flag (cfg f) = Layer_norm -> normalization_flag (cfg cp) = Layer_norm -> n_groups (cfg f) = n_groups (cfg cp)) ->
  ∃ r, paste_fcl f cp = Some r /\ cfg r = cfg cp /\ k_percentage r = k_percentage f /\ shaped r /\ active r = active f /\
    (∀ k, kept k -> has (cfg f) k -> has (cfg cp) k -> arr r k = arr f k) /\ (∀ k, ~ (kept k /\ has (cfg f) k /\ has (cfg cp) k) -> arr r k = arr cp k) /\
    (has (cfg f) Scores -> has (cfg cp) Scores -> indices r = indices f) /\ (~ (has (cfg f) Scores /\ has (cfg cp) Scores) -> indices r = indices cp) /\
    (normalization_flag (cfg f) = Layer_norm -> normalization_flag (cfg cp) = Layer_norm ->
       ∃ b b2 b', layer_norm f = Some b /\ layer_norm cp = Some b2 /\ layer_norm r = Some b' /\ b_mode b' = b_mode b2 /\ (∀ k, bn_kept k -> b_arr b' k = b_arr b k) /\ (∀ k, ~ bn_kept k -> b_arr b' k = b_arr b2 k)) /\
    (~ (normalization_flag (cfg f) = Layer_norm /\ normalization_flag (cfg cp) = Layer_norm) -> layer_norm r = layer_norm cp).
Proof.
  intros F1 F2 S1 S2 Ei Eo Eg. unfold paste_fcl. rewrite (decide_False (P := output (cfg f) <> output (cfg cp))) by tauto. rewrite (decide_False (P := _ <> _)) by (rewrite Ei, Eo; lia).
  rewrite !exists_p by done. cbn [andb]. set (c := cfg f) in *. set (c2 := cfg cp) in *.
  pose proof (shaped_fits f S1) as Hf1. fold c in Hf1. pose proof (shaped_fits cp S2) as Hf2. fold c2 in Hf2.
  assert (Hf2' : fits (arr cp) (fsize c)) by (intros k v E; rewrite (fsize_same c c2) by done; by apply Hf2).
  pose proof (copies_ok (fsize c) (copy_steps c true (exists_d_params c && exists_d_params c2) (exists_edge_popup_stuff c && exists_edge_popup_stuff c2) (noisy c && noisy c2)) (arr f) (arr cp) (copy_steps_size _ _ _ _ _) Hf1 Hf2') as (d & Ed & Hd).
  unfold copy_steps in Ed. rewrite Ed. cbn [mbind option_bind]. destruct (fits_copied _ _ _ _ _ Hf1 Hf2' Hd) as [Hdf Hdn].
  pose proof (shaped_usable f S1) as (_ & (al & Ha & La) & Hi1 & Hl1). fold c in La, Hi1, Hl1. pose proof (shaped_usable cp S2) as (_ & (al2 & Ha2 & La2) & Hi2 & Hl2). fold c2 in La2, Hi2, Hl2.
  rewrite (copy_ints_ok (output c)); [|intros l El; congruence|intros l El; congruence]. rewrite Ha, Ha2. cbn [mbind option_bind]. rewrite !exists_e by done.
  assert (Hind : ∃ ind, (if bool_decide (has c Scores) && bool_decide (has c2 Scores) then copy_ints (output c * input c) (indices f) (indices cp) else Some (indices cp)) = Some ind /\
     (has c Scores -> has c2 Scores -> ind = indices f) /\ (~ (has c Scores /\ has c2 Scores) -> ind = indices cp)).
  { rewrite <- bool_decide_and. destruct (decide (has c Scores /\ has c2 Scores)) as [[h1 h2]|Hn].
    - rewrite bool_decide_eq_true_2 by done. rewrite copy_ints_ok by (intros l El; rewrite Nat.mul_comm; rewrite ?Ei, ?Eo; (apply Hi2; done) || (rewrite <- ?Ei, <- ?Eo; by apply Hi1)).
      destruct S1 as (_ & _ & _ & X1 & _). destruct S2 as (_ & _ & _ & X2 & _). destruct (X1 h1) as (l1 & -> & _). destruct (X2 h2) as (l2 & -> & _). eexists. split; [done|]. split; [done|]. tauto.
    - rewrite bool_decide_eq_false_2 by done. eexists. split; [done|]. split; [tauto|done]. }
  destruct Hind as (ind & -> & Hn1 & Hn2). cbn [mbind option_bind].
  assert (Hln : ∃ ln, (if decide (normalization_flag c = Layer_norm /\ normalization_flag c2 = Layer_norm) then match layer_norm f, layer_norm cp with Some b1, Some b2 => b ← paste_bn b1 b2; Some (Some b) | _, _ => Some (layer_norm cp) end else Some (layer_norm cp)) = Some ln /\
    (normalization_flag c = Layer_norm -> normalization_flag c2 = Layer_norm ->
       ∃ b b2 b', layer_norm f = Some b /\ layer_norm cp = Some b2 /\ ln = Some b' /\ bn_shaped b' /\ batch b' = batch b2 /\ vdim b' = vdim b2 /\ b_mode b' = b_mode b2 /\ (∀ k, bn_kept k -> b_arr b' k = b_arr b k) /\ (∀ k, ~ bn_kept k -> b_arr b' k = b_arr b2 k)) /\
    (~ (normalization_flag c = Layer_norm /\ normalization_flag c2 = Layer_norm) -> ln = layer_norm cp)).
  { destruct (decide _) as [[e1 e2]|Hn].
    - destruct (Hl1 e1) as (b1 & -> & Hb1 & B1 & V1). destruct (Hl2 e2) as (b2 & -> & Hb2 & B2 & V2). destruct (paste_bn_ok b1 b2 Hb1 Hb2) as (b & -> & Hb & Bb & Vb & Mb & Kb & Kn); [rewrite V1, V2, Eo, Eg by done; done|].
      cbn. eexists. split; [done|]. split; [|tauto]. intros _ _. exists b1, b2, b. repeat (split; [done|]). done.
    - eexists. split; [done|]. split; [tauto|done]. }
  destruct Hln as (ln & -> & Hn3 & Hn4). cbn [mbind option_bind].
  eexists. split; [done|]. cbn [cfg k_percentage arr active indices layer_norm]. split; [done|]. split; [done|]. split; [|split; [done|split; [|split; [|split; [done|split; [done|split; [|done]]]]]]].
  - apply (shaped_same cp); cbn [cfg arr active indices layer_norm]; fold c2; try done.
    + intros k v E. rewrite <- (fsize_same c c2) by done. by apply Hdf.
    + exists al. split; [done|]. congruence.
    + intros l El. destruct (decide (has c Scores /\ has c2 Scores)) as [[h1 h2]|Hn]; [rewrite Hn1 in El by done; apply Hi1 in El; congruence|rewrite Hn2 in El by done; by apply Hi2].
    + destruct (decide (has c Scores /\ has c2 Scores)) as [[h1 h2]|Hn]; [|by rewrite Hn2]. rewrite Hn1 by done.
      destruct S1 as (_ & _ & _ & X1 & _). destruct S2 as (_ & _ & _ & X2 & _). destruct (X1 h1) as (l1 & -> & _). destruct (X2 h2) as (l2 & -> & _). done.
    + intros e2. destruct (decide (normalization_flag c = Layer_norm)) as [e1|e1].
      * destruct (Hn3 e1 e2) as (b & b2 & b' & _ & Eb2 & -> & Hb' & B & V & _). destruct (Hl2 e2) as (b2' & E2 & _ & B2 & V2). assert (b2' = b2) as -> by congruence. exists b'. repeat (split; [done || congruence|]). congruence.
      * rewrite Hn4 by tauto. by apply Hl2.
    + intros e2. rewrite Hn4 by tauto. destruct S2 as (_ & _ & _ & _ & _ & _ & X). by apply X.
  - intros k Hk h1 h2. rewrite Hd. destruct S1 as (X1 & _). destruct S2 as (X2 & _). destruct (X1 k h1) as (v & -> & _). destruct (X2 k h2) as (w & -> & _).
    rewrite copied_kept. rewrite !exists_d, !exists_e by done. destruct Hk as [Hk|[Hk|Hk]]; destruct k as [ | | | |[]|[]|[]|[]| |[]| | | | | | | | | | | | | ]; try destruct Hk; cbn [has] in h1, h2 |- *; cbn [andb];
      rewrite ?h1, ?h2; try done; rewrite ?bool_decide_eq_true_2 by tauto; rewrite ?(proj2 h1), ?(proj2 h2); done.
  - intros k Hk. rewrite Hd. destruct (decide (has c k)) as [h1|h1]; [|destruct S1 as (_ & X & _); rewrite X by done; done]. destruct (arr f k); [|done].
    destruct (decide (has c2 k)) as [h2|h2]; [|destruct S2 as (_ & X & _); rewrite X by done; done]. destruct (arr cp k); [|done].
    rewrite copied_kept. destruct k as [ | | | |[]|[]|[]|[]| |[]| | | | | | | | | | | | | ]; try done; exfalso; apply Hk; (split; [unfold kept; cbn; tauto|done]).
  - intros e1 e2. destruct (Hn3 e1 e2) as (b & b2 & b' & X1 & X2 & X3 & _ & _ & _ & X4 & X5 & X6). exists b, b2, b'. done.
Qed.
