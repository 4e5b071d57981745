From Coq Require Import Reals Lra.
From Verif Require Import NumLib BaseLemmas Upd_Model Upd_Spec Net_Model Net_Spec Soft_Model Soft_Spec Sort_Model Sort_Proofs.
Open Scope nat_scope.

Global Instance kind_eq_dec : EqDecision kind.
Proof. solve_decision. Defined.
Lemma keqb_eq k k' : keqb k k' = true <-> k = k'.
Proof. destruct k, k'; cbn; split; congruence. Qed.
Lemma neqb_eq n n' : neqb n n' = true <-> n = n'.
Proof. destruct n, n'; cbn; rewrite ?Nat.eqb_eq; split; congruence. Qed.
Lemma keqb_refl k : keqb k k = true. Proof. by destruct k. Qed.
Lemma neqb_refl n : neqb n n = true. Proof. by apply neqb_eq. Qed.
Lemma nonnull_length {A} (l : list A) : nonnull l = negb (length l =? 0). Proof. by destruct l. Qed.
Lemma flt_set h a k nm l a' k' nm' : flt (set_flt h a k nm l) a' k' nm' = if decide (a' = a /\ k' = k /\ nm' = nm) then l else flt h a' k' nm'.
Proof.
  cbn. destruct (decide _) as [(-> & -> & ->)|Hn].
  - by rewrite Nat.eqb_refl, keqb_refl, neqb_refl.
  - destruct (a' =? a) eqn:E1, (keqb k' k) eqn:E2, (neqb nm' nm) eqn:E3; try done.
    apply Nat.eqb_eq in E1. apply keqb_eq in E2. apply neqb_eq in E3. exfalso. by apply Hn.
Qed.
Lemma ints_set h a nm l a' nm' : ints (set_ints h a nm l) a' nm' = if decide (a' = a /\ nm' = nm) then l else ints h a' nm'.
Proof.
  cbn. destruct (decide _) as [(-> & ->)|Hn].
  - by rewrite Nat.eqb_refl, neqb_refl.
  - destruct (a' =? a) eqn:E1, (neqb nm' nm) eqn:E3; try done. apply Nat.eqb_eq in E1. apply neqb_eq in E3. exfalso. by apply Hn.
Qed.

Definition plan := kind -> name -> nat -> option kind.
Definition union (M1 M2 : plan) : plan := fun k nm i => match M1 k nm i with Some x => Some x | None => M2 k nm i end.
Definition nothing : plan := fun _ _ _ => None.
(** one entry *)
Definition only (b : bool) (sk k : kind) (nm : name) (i : nat) : plan := fun k' nm' i' => if keqb k' k && (neqb nm' nm && (i' =? i)) then if b then Some sk else None else None.
(** under a condition *)
Definition cond (b : bool) (M : plan) : plan := fun k nm i => match M k nm i with Some x => if b then Some x else None | None => None end.

Section layer.
Context (tau : R) (s d : nat) (Hsd : s <> d) (sz : kind -> name -> nat) (isz : name -> nat).
Definition Lay (h : mem) : Prop :=
  (forall k nm, length (flt h s k nm) = sz k nm /\ length (flt h d k nm) = sz k nm) /\
  (forall nm, is_scores nm = true -> length (ints h s nm) = isz nm /\ length (ints h d nm) = isz nm).
Definition Layer (f : mem -> option mem) (M : plan) : Prop := forall h, Lay h -> exists h', f h = Some h' /\ Lay h' /\
  (forall a nm, a <> d -> (forall k, flt h' a k nm = flt h a k nm) /\ ints h' a nm = ints h a nm) /\
  (forall k nm i, get h' d k nm i = match M k nm i with Some sk => (tau * get h s sk nm i + (1 - tau) * get h d k nm i)%R | None => get h d k nm i end).

Lemma Layer_ext f g M N : (forall h, Lay h -> f h = g h) -> (forall k nm i, M k nm i = N k nm i) -> Layer g M -> Layer f N.
Proof using. intros Hf HM H h Hh. destruct (H h Hh) as (h' & E & L & F & G). exists h'. rewrite Hf by done. split; [done|]. split; [done|]. split; [done|]. intros k nm i. by rewrite G, HM. Qed.
Lemma Layer_nop : Layer Some nothing.
Proof using. intros h Hh. by exists h. Qed.
Lemma Layer_seq f g M N : (forall k nm i, M k nm i = None \/ N k nm i = None) -> Layer f M -> Layer g N -> Layer (fun h => h ← f h; g h) (union M N).
Proof using Hsd.
  intros HD Hf Hg h Hh. destruct (Hf h Hh) as (h1 & E1 & L1 & F1 & G1). destruct (Hg h1 L1) as (h2 & E2 & L2 & F2 & G2).
  exists h2. rewrite E1. cbn [mbind option_bind]. split; [done|]. split; [done|]. split.
  - intros a nm Ha. destruct (F1 a nm Ha) as [A1 A2]. destruct (F2 a nm Ha) as [B1 B2]. split; [intros k; by rewrite B1|by rewrite B2].
  - intros k nm i. rewrite G2. unfold union. destruct (HD k nm i) as [E|E]; rewrite E.
    + destruct (N k nm i) as [sk|]; rewrite G1, E; [|done]. unfold get at 1. by rewrite (proj1 (F1 s nm Hsd)).
    + rewrite G1. by destruct (M k nm i).
Qed.
Lemma Layer_loop n body (Mi : nat -> plan) (M : plan) :
  (forall i, i < n -> Layer (body i) (Mi i)) ->
  (forall k nm j, (M k nm j = None /\ forall i, i < n -> Mi i k nm j = None) \/ exists i0, i0 < n /\ M k nm j = Mi i0 k nm j /\ forall i, i < n -> i <> i0 -> Mi i k nm j = None) ->
  Layer (for_loop n 0 body) M.
Proof using Hsd.
  intros Hb HM.
  enough (forall c i0, i0 + c <= n -> Layer (for_loop c i0 body) (fun k nm j => match list_find (fun i => Mi i k nm j <> None) (seq i0 c) with Some (_, i) => Mi i k nm j | None => None end)) as HH.
  { eapply Layer_ext; [intros; reflexivity| |apply (HH n 0); lia]. intros k nm j. cbn.
    destruct (list_find _ _) as [[q i]|] eqn:E.
    - apply list_find_Some in E as (E & Hne & _). apply lookup_seq in E as [-> Hi]. cbn in *. destruct (HM k nm j) as [[H1 H2]|(i0 & H1 & H2 & H3)].
      + exfalso. apply Hne. by apply H2.
      + destruct (decide (q = i0)) as [->|Hd]; [done|]. exfalso. apply Hne. apply H3; done.
    - apply list_find_None in E. rewrite list.Forall_forall in E. destruct (HM k nm j) as [[H1 H2]|(i0 & H1 & H2 & H3)]; [done|].
      rewrite H2. destruct (Mi i0 k nm j) eqn:E0; [|done]. exfalso. apply (E i0); [apply elem_of_seq; lia|]. by rewrite E0. }
  induction c as [|c IH]; intros i0 Hc.
  - cbn. eapply Layer_ext; [intros; reflexivity| |apply Layer_nop]. done.
  - cbn [for_loop seq]. eapply Layer_ext; [intros; reflexivity| |apply Layer_seq; [|apply (Hb i0); lia|apply (IH (S i0)); lia]].
    + intros k nm j. unfold union. cbn. destruct (Mi i0 k nm j) eqn:E; [by rewrite decide_True by done|]. rewrite decide_False by (intros Hx; by apply Hx).
      destruct (list_find _ _) as [[q i]|]; done.
    + intros k nm j. destruct (Mi i0 k nm j) eqn:E; [right|by left].
      destruct (list_find _ _) as [[q i]|] eqn:E2; [|done]. apply list_find_Some in E2 as (E2 & Hne & _). apply lookup_seq in E2 as [-> Hi].
      destruct (HM k nm j) as [[H1 H2]|(i1 & H1 & H2 & H3)]; [rewrite H2 in E by lia; done|].
      destruct (decide (i1 = i0)) as [->|]; [apply H3; lia|]. rewrite H3 in E by lia. done.
Qed.
Lemma Layer_if b f M : (b = true -> Layer f M) -> Layer (if_ b f) (cond b M).
Proof using.
  intros H. destruct b; cbn.
  - eapply Layer_ext; [intros; reflexivity| |by apply H]. intros k nm i. unfold cond. by destruct (M k nm i).
  - eapply Layer_ext; [intros; reflexivity| |apply Layer_nop]. intros k nm i. unfold cond. by destruct (M k nm i).
Qed.
Lemma Layer_mix sk k nm i : i < sz sk nm -> i < sz k nm -> Layer (mix tau s d sk k nm i) (only true sk k nm i).
Proof using Hsd.
  intros H1 H2 h [L I]. destruct (L sk nm) as [Ls _]. destruct (L k nm) as [_ Ld].
  unfold mix. rewrite !rd_el by lia. cbn [mbind option_bind]. unfold wr. rewrite decide_True by lia. cbn [mbind option_bind].
  eexists. split; [done|]. split; [split|split].
  - intros k' nm'. rewrite !flt_set. destruct (L k' nm') as [L1 L2]. rewrite decide_False by (intros (? & _); done). split; [done|].
    destruct (decide _) as [(_ & -> & ->)|]; [by rewrite insert_length|done].
  - exact I.
  - intros a nm' Ha. split; [|done]. intros k'. rewrite flt_set. by rewrite decide_False by (intros (? & _); done).
  - intros k' nm' i'. unfold get, only. rewrite flt_set.
    destruct (keqb k' k) eqn:E1; cbn [andb]; [apply keqb_eq in E1 as ->|rewrite decide_False; [done|]; intros (_ & -> & _); by rewrite keqb_refl in E1].
    destruct (neqb nm' nm) eqn:E2; cbn [andb]; [apply neqb_eq in E2 as ->|rewrite decide_False; [done|]; intros (_ & _ & ->); by rewrite neqb_refl in E2].
    rewrite decide_True by done. destruct (i' =? i) eqn:E3.
    + apply Nat.eqb_eq in E3 as ->. apply el_lookup. by rewrite list_lookup_insert by lia.
    + apply Nat.eqb_neq in E3. unfold el. rewrite !nth_lookup. by rewrite list_lookup_insert_ne by done.
Qed.
Lemma Layer_blend k nm i : i < sz k nm -> Layer (blend tau s d k nm i) (only true k k nm i).
Proof using Hsd. intros H. by apply Layer_mix. Qed.
Lemma Layer_blend_opt k nm i : (sz k nm = 0 \/ i < sz k nm) -> Layer (blend_opt tau s d k nm i) (only (negb (sz k nm =? 0)) k k nm i).
Proof using Hsd.
  intros H. unfold blend_opt. eapply Layer_ext; [| |apply (Layer_if (negb (sz k nm =? 0)) (blend tau s d k nm i) (only (negb (sz k nm =? 0)) k k nm i))].
  - intros h [L _]. rewrite nonnull_length, (proj1 (L k nm)). reflexivity.
  - intros k' nm' i'. unfold cond, only. destruct (keqb k' k && _); [|done]. by destruct (negb (sz k nm =? 0)).
  - intros E. rewrite E. apply negb_true_iff, Nat.eqb_neq in E. destruct H; [lia|]. by apply Layer_blend.
Qed.
Lemma Layer_seq' f g M N : Layer f M -> Layer g N -> (forall k nm i, M k nm i = None \/ N k nm i = None) -> Layer (fun h => h ← f h; g h) (union M N).
Proof using Hsd. intros. by apply Layer_seq. Qed.
(** a loop whose iteration i touches the entries number i *)
Lemma Layer_idx n body M : (forall i, i < n -> Layer (body i) (fun k nm j => if j =? i then M k nm j else None)) ->
  Layer (for_loop n 0 body) (fun k nm j => if j <? n then M k nm j else None).
Proof using Hsd.
  intros H. eapply Layer_loop; [exact H|]. intros k nm j. cbn beta. destruct (j <? n) eqn:E.
  - apply Nat.ltb_lt in E. right. exists j. rewrite Nat.eqb_refl. split; [done|]. split; [done|]. intros i Hi Hne. by replace (j =? i) with false by (symmetry; apply Nat.eqb_neq; lia).
  - left. split; [done|]. apply Nat.ltb_ge in E. intros i Hi. by replace (j =? i) with false by (symmetry; apply Nat.eqb_neq; lia).
Qed.
Lemma Layer_set_ints nm l : (forall h, Lay h -> length (l h) = isz nm) -> Layer (fun h => Some (set_ints h d nm (l h))) nothing.
Proof using Hsd.
  intros Hl h [L I]. eexists. split; [done|]. split; [split|split].
  - exact L.
  - intros nm' Hs. rewrite !ints_set. rewrite decide_False by (intros (? & _); done). destruct (I nm' Hs) as [I1 I2]. split; [done|].
    destruct (decide _) as [(_ & ->)|]; [by apply Hl|done].
  - intros a nm' Ha. split; [done|]. rewrite ints_set. by rewrite decide_False by (intros (? & _); done).
  - done.
Qed.
Lemma Layer_index nm i : is_scores nm = true -> i < isz nm -> Layer (index_at d nm i) nothing.
Proof using Hsd.
  intros Hs Hi. unfold index_at. eapply Layer_ext; [| |apply (Layer_set_ints nm (fun h => <[i := i]> (ints h d nm)))].
  - intros h [L I]. destruct (I nm Hs) as [_ I2]. unfold wr. by rewrite decide_True by lia.
  - done.
  - intros h [L I]. rewrite insert_length. by apply I.
Qed.
Lemma Layer_index_opt nm i a : is_scores nm = true -> (a = s \/ a = d) -> i < isz nm -> Layer (fun h => if nonnull (ints h a nm) then index_at d nm i h else Some h) nothing.
Proof using Hsd.
  intros Hs Ha Hi. eapply Layer_ext; [| |by apply (Layer_index nm i)]; [|done]. intros h [L I]. destruct (I nm Hs) as [I1 I2].
  rewrite nonnull_length. replace (length (ints h a nm)) with (isz nm) by (by destruct Ha as [-> | ->]). by replace (isz nm =? 0) with false by (symmetry; apply Nat.eqb_neq; lia).
Qed.
Lemma Layer_sort k nm inm n : is_scores inm = true -> n <= sz k nm -> n <= isz inm -> Layer (sort_scores d k nm inm n) nothing.
Proof using Hsd.
  intros Hs H1 H2. destruct n as [|n]; [apply Layer_nop|].
  eapply Layer_ext; [| |apply (Layer_set_ints inm (fun h => default (ints h d inm) (merge_sort 1 (S (S n)) (map trunc (flt h d k nm)) (ints h d inm) 0 n)))].
  - intros h [L I]. destruct (I inm Hs) as [_ I2]. destruct (L k nm) as [_ L2].
    destruct (merge_sort_perm 1 (S (S n)) (map trunc (flt h d k nm)) (ints h d inm) 0 n) as (l & E & P & _); [lia|rewrite map_length; lia|lia|].
    unfold sort_scores. by rewrite E.
  - done.
  - intros h [L I]. destruct (I inm Hs) as [_ I2]. destruct (L k nm) as [_ L2].
    destruct (merge_sort_perm 1 (S (S n)) (map trunc (flt h d k nm)) (ints h d inm) 0 n) as (l & E & P & _); [lia|rewrite map_length; lia|lia|]. rewrite E. cbn. rewrite <- I2. by apply Permutation_length.
Qed.
End layer.

Ltac cases j := let kk := fresh in let nn := fresh in intros kk nn j; destruct kk; destruct nn as [| | | | |kq|bq|bq|gq|gq|gq|gq|gq].
Ltac disj := let j := fresh in cases j; cbn; first [left; reflexivity|right; reflexivity].
Ltac leaf side :=
  lazymatch goal with
  | |- Layer _ _ _ _ _ (blend _ _ _ _ _ _) _ => apply Layer_blend; [done|side]
  | |- Layer _ _ _ _ _ (blend_opt _ _ _ _ _ _) _ => apply Layer_blend_opt; [done|side]
  | |- Layer _ _ _ _ _ (mix _ _ _ _ _ _ _) _ => apply Layer_mix; [done|side|side]
  | |- Layer _ _ _ _ _ (if_ _ _) _ => apply Layer_if; intros; leaves side
  | |- Layer _ _ _ _ _ (fun h => if nonnull (ints h _ _) then index_at _ _ _ h else Some h) _ => apply Layer_index_opt; [done|done|by left|side]
  end
with leaves side :=
  lazymatch goal with
  | |- Layer _ _ _ _ _ (fun h => mbind _ (_ h)) _ => eapply Layer_seq'; [done|leaf side|leaves side|disj]
  | |- _ => leaf side
  end.

Definition bn_plan (b : nat) : plan := fun k nm _ =>
  match nm with Gamma b' | Beta b' => if b' =? b then match k with Val | D1 | D2 | D3 => Some k | _ => None end else None | _ => None end.
Lemma bn_layer tau s d sz isz b f : s <> d ->
  (forall k, k = Val \/ k = D1 \/ k = D2 \/ k = D3 -> sz k (Gamma b) = bnl_dim f /\ sz k (Beta b) = bnl_dim f) ->
  Layer tau s d sz isz (slow_paste_bn tau s d b f) (fun k nm j => if j <? bnl_dim f then bn_plan b k nm j else None).
Proof.
  intros Hsd Hz. unfold slow_paste_bn. apply Layer_idx; [done|]. intros i Hi.
  destruct (Hz Val) as [V1 V2]; [by auto|]. destruct (Hz D1) as [A1 A2]; [by auto|]. destruct (Hz D2) as [B1 B2]; [by auto|]. destruct (Hz D3) as [C1 C2]; [by auto|].
  eapply Layer_ext; [intros; reflexivity| |leaves ltac:(lia)].
  cases j; unfold bn_plan, union, only; cbn; try (by destruct (j =? i)); destruct (bq =? b), (j =? i); done.
Qed.

(** the sizes of the arrays of a pair of layers *)
Record fits (p : pair) (sz : kind -> name -> nat) (isz : name -> nat) : Prop := {
  fit_val : forall nm, sz Val nm = params p nm;
  fit_opt : forall k nm, sz k nm = 0 \/ sz k nm = params p nm;
  fit_bn : forall b k, match p with PS _ _ => True | _ => k = D1 \/ k = D2 \/ k = D3 end -> sz k (Gamma b) = params p (Gamma b) /\ sz k (Beta b) = params p (Beta b);
  fit_sc : forall k, match p with PC _ _ => k = D1 \/ k = D2 \/ k = D3 | _ => False end -> sz k Scores = 0 \/ sz D Scores = params p Scores;
  fit_int : forall nm, is_scores nm = true -> isz nm = params p nm }.

Definition on (b : bool) (k : kind) : option kind := if b then Some k else None.
Definition fcl_plan_at (f : fnode) (sz : kind -> name -> nat) : plan := fun k nm j =>
  let nn := negb (sz k nm =? 0) in
  let small := (j <? fl_out (f_cfg f)) in
  let pd := match k with Val => has_params f | D1 | D2 | D3 => has_d f && nn | _ => false end in
  match nm with
  | Weights => on pd k
  | NoisyWeights => on (pd && fl_noisy (f_cfg f)) k
  | Biases => on (pd && small) k
  | NoisyBiases => on (pd && (fl_noisy (f_cfg f) && small)) k
  | Scores => on (match k with Val | D1 | D2 | D3 => has_scores f && nn | _ => false end) k
  | _ => None
  end.
Lemma has_d_params f : has_d f = true -> has_params f = true.
Proof. unfold has_d, has_params. by destruct (negb _). Qed.
Ltac fold_same :=
  repeat match goal with H : f_cfg ?g = f_cfg ?f |- context [f_cfg ?g] => rewrite H end.
Lemma fcl_at_layer tau f g sz isz i : f_at f <> f_at g -> same (PF f g) -> fits (PF f g) sz isz -> i < fl_out (f_cfg f) * fl_in (f_cfg f) ->
  Layer tau (f_at f) (f_at g) sz isz (slow_paste_fcl_at tau f g i) (fun k nm j => if j =? i then fcl_plan_at f sz k nm j else None).
Proof.
  intros Hsd (Ec & Ee & Hin) [HV HO HB HC HI] Hi.
  assert (Ep : has_params g = has_params f) by (unfold has_params; by rewrite Ec).
  assert (Ed : has_d g = has_d f) by (unfold has_d; by rewrite Ec).
  assert (Es : has_scores g = has_scores f) by (unfold has_scores; by rewrite Ec, Ee).
  unfold slow_paste_fcl_at. rewrite Ec, Ep, Ed, Es, !andb_diag.
  pose proof (has_d_params f) as Hdp.
  eapply Layer_ext; [intros; reflexivity| |
    leaves ltac:(
      repeat match goal with H : (_ <? _) = true |- _ => apply Nat.ltb_lt in H end;
      try match goal with H : has_d f = true |- _ => pose proof (Hdp H) end;
      match goal with
      | |- _ < sz Val ?nm => rewrite HV
      | |- sz ?k ?nm = 0 \/ _ => destruct (HO k nm) as [-> | ->]; [by left|right]
      end; cbn [params];
      repeat match goal with H : ?b = true |- context [?b] => rewrite H end; cbn; lia)].
  cases j; unfold fcl_plan_at, union, only, cond, on; cbn -[Nat.ltb]; destruct (j =? i) eqn:Ej; cbn -[Nat.ltb]; try done;
  apply Nat.eqb_eq in Ej as ->; try match goal with |- context [negb ?b] => destruct b end;
  destruct (has_params f), (has_d f), (has_scores f), (fl_noisy (f_cfg f)), (i <? fl_out (f_cfg f)); done.
Qed.
Definition fcl_plan (f : fnode) (sz : kind -> name -> nat) : plan := union
  (fun k nm j => if j <? fl_out (f_cfg f) * fl_in (f_cfg f) then fcl_plan_at f sz k nm j else None)
  (fun k nm j => match fl_norm (f_cfg f) with Some b => if j <? bnl_dim b then bn_plan 0 k nm j else None | None => None end).
Lemma Layer_nothing tau s d sz isz f g M : s <> d -> Layer tau s d sz isz f nothing -> Layer tau s d sz isz g M -> Layer tau s d sz isz (fun h => h ← f h; g h) M.
Proof. intros Hsd Hf Hg. eapply Layer_ext; [intros; reflexivity| |apply Layer_seq'; [done|exact Hf|exact Hg|by left]]. done. Qed.
Lemma Layer_loop_nothing tau s d sz isz n body : s <> d -> (forall i, i < n -> Layer tau s d sz isz (body i) nothing) -> Layer tau s d sz isz (for_loop n 0 body) nothing.
Proof. intros Hsd H. eapply Layer_loop; [done|exact H|]. intros. by left. Qed.
Lemma Layer_if_nothing tau s d sz isz b f : (b = true -> Layer tau s d sz isz f nothing) -> Layer tau s d sz isz (if_ b f) nothing.
Proof. intros H. eapply Layer_ext; [intros; reflexivity| |by apply Layer_if]. done. Qed.
Lemma fcl_layer tau f g sz isz : f_at f <> f_at g -> same (PF f g) -> fits (PF f g) sz isz ->
  Layer tau (f_at f) (f_at g) sz isz (slow_paste_fcl tau f g) (fcl_plan f sz).
Proof.
  intros Hsd Hs Hf. pose proof Hs as (Ec & Ee & Hin). pose proof Hf as [HV HO HB HC HI].
  assert (Es : has_scores g = has_scores f) by (unfold has_scores; by rewrite Ec, Ee).
  eapply Layer_ext.
  { intros h _. unfold slow_paste_fcl. rewrite Ec, Es, andb_diag. rewrite decide_False by (intros Hn; by apply Hn). rewrite decide_False by (intros Hn; apply Hn; lia). reflexivity. }
  { intros; reflexivity. }
  set (io := fl_out (f_cfg f) * fl_in (f_cfg f)) in *. unfold fcl_plan. apply Layer_seq'; [done| | |].
  - apply Layer_idx; [done|]. intros i Hi. by apply fcl_at_layer.
  - apply Layer_nothing; [done| |].
    + apply Layer_if_nothing. intros Hsc.
      assert (Hiz : isz Scores = io) by (rewrite HI by done; cbn; by rewrite Hsc).
      assert (Hz : sz Val Scores = io) by (rewrite HV; cbn; by rewrite Hsc).
      apply Layer_nothing; [done| |].
      * apply Layer_loop_nothing; [done|]. intros i Hi. apply Layer_index_opt; [done|done|by right|lia].
      * eapply Layer_ext; [| |apply (Layer_sort tau (f_at f) (f_at g) Hsd sz isz Val Scores Scores io); [done|lia|lia]]; [|done].
        intros h [L I]. rewrite !nonnull_length. destruct (I Scores eq_refl) as [I1 I2]. destruct (L Val Scores) as [L1 L2]. rewrite I2, L2, Hiz, Hz, andb_diag.
        destruct io; done.
    + destruct (fl_norm (f_cfg f)) as [b|] eqn:En.
      * apply bn_layer; [done|]. intros k Hk. assert (Hp : params (PF f g) (Gamma 0) = bnl_dim b /\ params (PF f g) (Beta 0) = bnl_dim b) by (cbn; by rewrite En).
        destruct Hp as [P1 P2]. destruct Hk as [->|Hk]; [by rewrite !HV|]. destruct (HB 0 k) as [B1 B2]; [done|]. by rewrite B1, B2.
      * apply (Layer_ext _ _ _ _ _ _ Some nothing); [done|done|apply Layer_nop].
  - cases j; cbn -[Nat.ltb]; try (left; match goal with |- (if ?b then None else None) = None => by destruct b end);
    right; destruct (fl_norm (f_cfg f)) as [b|]; try done; by destruct (j <? bnl_dim b).
Qed.

(** a loop whose iteration b handles normalization layer b *)
Definition bns_plan (bns : list bnl) : plan := fun k nm j =>
  match nm with
  | Gamma b | Beta b => if j <? group_dim bns b then match k with Val | D1 | D2 | D3 => Some k | _ => None end else None
  | _ => None
  end.
Lemma bns_layer tau s d sz isz bns : s <> d ->
  (forall b k, k = Val \/ k = D1 \/ k = D2 \/ k = D3 -> sz k (Gamma b) = group_dim bns b /\ sz k (Beta b) = group_dim bns b) ->
  Layer tau s d sz isz (for_loop (length bns) 0 (fun b h => x ← rd bns b; slow_paste_bn tau s d b x h)) (bns_plan bns).
Proof.
  intros Hsd Hz. apply (Layer_loop tau s d Hsd sz isz _ _ (fun b k nm j => if j <? group_dim bns b then bn_plan b k nm j else None)).
  - intros b Hb. destruct (lookup_lt_is_Some_2 bns b Hb) as [x Ex]. assert (Hg : group_dim bns b = bnl_dim x) by (unfold group_dim; by rewrite Ex). rewrite Hg.
    eapply Layer_ext; [|intros; reflexivity|apply (bn_layer tau s d sz isz b x Hsd)].
    + intros h _. unfold rd. by rewrite Ex.
    + intros k Hk. rewrite <- Hg. by apply Hz.
  - intros k nm j.
    assert (Hnorm : forall b, (nm = Gamma b \/ nm = Beta b) -> (bns_plan bns k nm j = None /\ (forall i, i < length bns -> (if j <? group_dim bns i then bn_plan i k nm j else None) = None)) \/
      exists i0, i0 < length bns /\ bns_plan bns k nm j = (if j <? group_dim bns i0 then bn_plan i0 k nm j else None) /\ forall i, i < length bns -> i <> i0 -> (if j <? group_dim bns i then bn_plan i k nm j else None) = None).
    { intros b Hn. destruct (decide (b < length bns)) as [Hb|Hb].
      - right. exists b. split; [done|]. split.
        + destruct Hn as [-> | ->]; cbn -[Nat.ltb]; rewrite Nat.eqb_refl; by destruct (j <? _), k.
        + intros i Hi Hne. destruct Hn as [-> | ->]; cbn -[Nat.ltb]; replace (b =? i) with false by (symmetry; apply Nat.eqb_neq; lia); by destruct (j <? _).
      - left. split.
        + assert (Hg : group_dim bns b = 0) by (unfold group_dim; by rewrite lookup_ge_None_2 by lia). destruct Hn as [-> | ->]; cbn -[Nat.ltb]; by rewrite Hg.
        + intros i Hi. destruct Hn as [-> | ->]; cbn -[Nat.ltb]; replace (b =? i) with false by (symmetry; apply Nat.eqb_neq; lia); by destruct (j <? _). }
    destruct nm; try (by apply (Hnorm b); auto); left; (split; [done|]); intros i Hi; cbn -[Nat.ltb]; by destruct (j <? _).
Qed.

Lemma Layer_dyn tau s d sz isz (B : mem -> bool) b F M : (forall h, Lay s d sz isz h -> B h = b) -> Layer tau s d sz isz (if_ b F) M -> Layer tau s d sz isz (fun h => if_ (B h) F h) M.
Proof. intros HB H. eapply Layer_ext; [|intros; reflexivity|exact H]. intros h Hh. by rewrite HB. Qed.
Definition nn (sz : kind -> name -> nat) (k : kind) (nm : name) : bool := negb (sz k nm =? 0).
Definition kernel_plan (f : cnode) sz (i : nat) : plan := fun k nm j =>
  match nm with
  | Kernel q => if q =? i then match k with Val => Some Val | DG => None | _ => on (trains_cl f && nn sz D (Kernel i) && nn sz k (Kernel i)) k end else None
  | _ => None
  end.
Definition bias_plan (f : cnode) sz : plan := fun k nm j =>
  match nm with
  | Biases => match k with Val => Some Val | DG => None | _ => on (trains_cl f && nn sz D Biases && nn sz k Biases) k end
  | _ => None
  end.
Definition kernel_size (f : cnode) : nat := cv_channels (c_cfg f) * cv_rows (c_cfg f) * cv_cols (c_cfg f).
Lemma kernel_layer tau f g sz isz i : c_at f <> c_at g -> same (PC f g) -> fits (PC f g) sz isz -> i < cv_kernels (c_cfg f) -> cv_conv (c_cfg f) = true ->
  Layer tau (c_at f) (c_at g) sz isz (slow_paste_kernel tau f g i)
    (union (fun k nm j => if j <? kernel_size f then kernel_plan f sz i k nm j else None) (fun k nm j => if j =? i then bias_plan f sz k nm j else None)).
Proof.
  intros Hsd (Ec & Ee) [HV HO HB HC HI] Hi Hconv.
  assert (Et : trains_cl g = trains_cl f) by (unfold trains_cl; by rewrite Ec).
  assert (Hb : Nat.ltb i (cv_kernels (c_cfg f)) = true) by (by apply Nat.ltb_lt).
  unfold slow_paste_kernel. rewrite Ec, Et, Hconv. cbn [andb if_].
  apply Layer_seq'; [done| | |].
  - apply Layer_idx; [done|]. intros j Hj.
    assert (HK : forall k, sz k (Kernel i) = 0 \/ j < sz k (Kernel i)). { intros k. destruct (HO k (Kernel i)) as [->|E]; [by left|right]. rewrite E. cbn -[Nat.ltb]. by rewrite Hconv, Hb. }
    eapply Layer_ext; [intros; reflexivity| |eapply Layer_seq'; [done|apply Layer_blend; [done|]| |]].
    2: { rewrite HV. cbn -[Nat.ltb]. by rewrite Hconv, Hb. }
    2: { apply (Layer_dyn _ _ _ _ _ _ (trains_cl f && nn sz D (Kernel i))).
      - intros h [L _]. rewrite !nonnull_length. destruct (L D (Kernel i)) as [-> ->]. unfold nn. by destruct (trains_cl f), (sz D (Kernel i) =? 0).
      - leaves ltac:(apply HK). }
    2: disj.
    cases j'; unfold kernel_plan, union, only, cond, on, nn; cbn; try (by destruct (j' =? j)); destruct (kq =? i) eqn:E; cbn; try (by destruct (j' =? j));
      apply Nat.eqb_eq in E as ->; destruct (j' =? j); cbn; try done; rewrite ?Nat.eqb_refl; cbn; repeat match goal with |- context [negb ?b] => destruct b; cbn end; destruct (trains_cl f); done.
  - assert (HK : forall k, sz k Biases = 0 \/ i < sz k Biases). { intros k. destruct (HO k Biases) as [->|E]; [by left|right]. rewrite E. cbn -[Nat.ltb]. by rewrite Hconv. }
    eapply Layer_ext; [intros; reflexivity| |eapply Layer_seq'; [done|apply Layer_blend; [done|]| |]].
    2: { rewrite HV. cbn -[Nat.ltb]. by rewrite Hconv. }
    2: { apply (Layer_dyn _ _ _ _ _ _ (trains_cl f && nn sz D Biases)).
      - intros h [L _]. rewrite !nonnull_length. destruct (L D Biases) as [-> _]. done.
      - leaves ltac:(apply HK). }
    2: disj.
    cases j'; unfold bias_plan, union, only, cond, on, nn; cbn; destruct (j' =? i); cbn; try done; repeat match goal with |- context [negb ?b] => destruct b; cbn end; destruct (trains_cl f); done.
  - cases j'; cbn -[Nat.ltb]; try (left; by destruct (j' <? _)); right; by destruct (j' =? i).
Qed.

Definition kernels_plan (f : cnode) sz : plan := fun k nm j =>
  match nm with
  | Kernel q => if (q <? cv_kernels (c_cfg f)) && (j <? kernel_size f) then kernel_plan f sz q k nm j else None
  | Biases => if j <? cv_kernels (c_cfg f) then bias_plan f sz k nm j else None
  | _ => None
  end.
Lemma kernels_layer tau f g sz isz : c_at f <> c_at g -> same (PC f g) -> fits (PC f g) sz isz -> cv_conv (c_cfg f) = true ->
  Layer tau (c_at f) (c_at g) sz isz (for_loop (cv_kernels (c_cfg f)) 0 (slow_paste_kernel tau f g)) (kernels_plan f sz).
Proof.
  intros Hsd Hs Hf Hc. eapply Layer_loop; [done|intros i Hi; by apply kernel_layer|].
  intros k nm j. set (K := cv_kernels (c_cfg f)).
  assert (Hdis : forall q i, q <> i -> kernel_plan f sz i k (Kernel q) j = None). { intros q i Hq. cbn. by rewrite (proj2 (Nat.eqb_neq q i) Hq). }
  destruct nm as [| | | | |kq|bq|bq|gq|gq|gq|gq|gq]; unfold union; cbn [kernel_plan bias_plan kernels_plan]; fold K;
    try (left; split; [done|]; intros i Hi; by destruct (j <? _), (j =? i)).
  - destruct (j <? K) eqn:E.
    + right. exists j. split; [by apply Nat.ltb_lt|]. split; [by rewrite Nat.eqb_refl; destruct (j <? kernel_size f)|].
      intros i Hi Hne. rewrite (proj2 (Nat.eqb_neq j i)) by lia. by destruct (j <? kernel_size f).
    + left. split; [done|]. intros i Hi. apply Nat.ltb_ge in E. rewrite (proj2 (Nat.eqb_neq j i)) by lia. by destruct (j <? kernel_size f).
  - destruct (kq <? K) eqn:E; cbn [andb].
    + right. exists kq. split; [by apply Nat.ltb_lt|]. split.
      * destruct (j <? kernel_size f); [|by destruct (j =? kq)]. destruct (if kq =? kq then _ else _) eqn:E2; [done|by destruct (j =? kq)].
      * intros i Hi Hne. rewrite (proj2 (Nat.eqb_neq kq i)) by lia. by destruct (j <? kernel_size f), (j =? i).
    + left. split; [done|]. intros i Hi. apply Nat.ltb_ge in E. rewrite (proj2 (Nat.eqb_neq kq i)) by lia. by destruct (j <? kernel_size f), (j =? i).
Qed.
Definition score_plan sz : plan := fun k nm j =>
  match nm with
  | Scores => if nn sz k Scores then match k with Val => Some Val | DG => None | _ => Some D end else None
  | _ => None
  end.
Lemma score_layer tau f g sz isz i : c_at f <> c_at g -> same (PC f g) -> fits (PC f g) sz isz -> i < params (PC f g) Scores ->
  Layer tau (c_at f) (c_at g) sz isz (slow_paste_score tau f g i) (fun k nm j => if j =? i then score_plan sz k nm j else None).
Proof.
  intros Hsd Hs Hf Hi. pose proof Hs as (Ec & Ee). pose proof Hf as [HV HO HB HC HI].
  assert (HK : forall k, sz k Scores = 0 \/ i < sz k Scores). { intros k. destruct (HO k Scores) as [->|E]; [by left|right; lia]. }
  assert (HD : forall k, k = D1 \/ k = D2 \/ k = D3 -> Layer tau (c_at f) (c_at g) sz isz (fun h => if nonnull (flt h (c_at f) k Scores) then mix tau (c_at f) (c_at g) D k Scores i h else Some h) (only (nn sz k Scores) D k Scores i)).
  { intros k Hk. destruct (sz k Scores =? 0) eqn:E.
    - eapply Layer_ext; [| |apply Layer_nop].
      + intros h [L _]. rewrite nonnull_length. destruct (L k Scores) as [-> _]. by rewrite E.
      + intros k' nm' j'. unfold nothing, only, nn. rewrite E. by destruct (keqb k' k && _).
    - eapply Layer_ext; [| |apply Layer_mix].
      + intros h [L _]. rewrite nonnull_length. destruct (L k Scores) as [-> _]. by rewrite E.
      + intros k' nm' j'. unfold only, nn. by rewrite E.
      + done.
      + apply Nat.eqb_neq in E. destruct (HC k Hk); [done|]. lia.
      + apply Nat.eqb_neq in E. destruct (HK k); [done|lia]. }
  unfold slow_paste_score.
  eapply Layer_ext; [intros; reflexivity| |].
  2: { eapply Layer_seq'; [done|apply Layer_blend_opt; [done|apply HK]| |].
       eapply Layer_seq'; [done|apply Layer_blend_opt; [done|apply HK]| |].
       eapply Layer_seq'; [done|apply (HD D1); auto| |].
       eapply Layer_seq'; [done|apply (HD D2); auto| |].
       eapply Layer_seq'; [done|apply (HD D3); auto| |].
       apply Layer_index_opt; [done|done|by left|by rewrite HI].
       all: disj. }
  cases j; unfold score_plan, union, only, nothing, nn; cbn; destruct (j =? i); cbn; try done; by destruct (negb _).
Qed.
Definition cl_plan (f : cnode) sz : plan := union (cond (cv_conv (c_cfg f)) (kernels_plan f sz))
  (union (bns_plan (cv_group (c_cfg f)))
  (cond (has_scores_cl f) (fun k nm j => if j <? cv_kernels (c_cfg f) * cv_channels (c_cfg f) * cv_rows (c_cfg f) * cv_cols (c_cfg f) then score_plan sz k nm j else None))).
Lemma cl_layer tau f g sz isz : c_at f <> c_at g -> same (PC f g) -> fits (PC f g) sz isz ->
  Layer tau (c_at f) (c_at g) sz isz (slow_paste_cl tau f g) (cl_plan f sz).
Proof.
  intros Hsd Hs Hf. pose proof Hs as (Ec & Ee). pose proof Hf as [HV HO HB HC HI].
  assert (Es : has_scores_cl g = has_scores_cl f) by (unfold has_scores_cl; by rewrite Ec, Ee).
  eapply Layer_ext.
  { intros h _. unfold slow_paste_cl. rewrite Ec, Es, andb_diag. rewrite !decide_False by (intros Hn; by apply Hn). rewrite bool_decide_true by done. cbn [if_]. reflexivity. }
  { intros; reflexivity. }
  unfold cl_plan. apply Layer_seq'; [done| |apply Layer_seq'; [done| | |]|].
  - apply Layer_if. intros Hc. by apply kernels_layer.
  - apply bns_layer; [done|]. intros b k [->|Hk]; [by rewrite !HV|]. by apply HB.
  - apply Layer_if. intros Hsc.
    set (all := cv_kernels (c_cfg f) * cv_channels (c_cfg f) * cv_rows (c_cfg f) * cv_cols (c_cfg f)).
    assert (Hp : params (PC f g) Scores = all) by (cbn; by rewrite Hsc).
    eapply Layer_ext; [intros; reflexivity| |apply Layer_seq'; [done| | |]].
    2: { apply (Layer_idx tau (c_at f) (c_at g) Hsd sz isz all _ (score_plan sz)). intros i Hi. apply score_layer; [done|done|done|lia]. }
    2: { eapply Layer_ext; [| |apply (Layer_sort tau (c_at f) (c_at g) Hsd sz isz Val Scores Scores all); [done|rewrite HV; lia|rewrite HI by done; lia]]; [|done].
         intros h [L I]. rewrite nonnull_length. destruct (L Val Scores) as [_ ->]. rewrite HV, Hp. by destruct all. }
    2: by right.
    intros k nm j. unfold union, nothing. by destruct (j <? all), (score_plan sz k nm j).
  - cases j; cbn -[Nat.ltb]; try (by left); right; unfold cond; by destruct (j <? _).
  - cases j; unfold union, cond; cbn -[Nat.ltb]; try (by left); right; by destruct (j <? _).
Qed.

Definition lstm_trains (l : rnode) : bool := bool_decide (ls_mode (l_cfg (r_l l)) <> EDGE_POPUP).
Definition w_plan (l : rnode) sz : plan := fun k nm j =>
  match nm with
  | W _ => match k with Val => Some Val | D1 | D2 | D3 => on (lstm_trains l && nn sz k nm) k | _ => None end
  | WScores _ => match k with DG => None | _ => on (has_scores_lstm l && nn sz k nm) k end
  | _ => None
  end.
Definition u_plan (l : rnode) sz : plan := fun k nm j =>
  match nm with
  | U _ => match k with Val => Some Val | D1 | D2 | D3 => on (lstm_trains l && nn sz k nm) k | _ => None end
  | LBiases _ => if j <? ls_out (l_cfg (r_l l)) then match k with Val => Some Val | D1 | D2 | D3 => on (lstm_trains l && nn sz k nm) k | _ => None end else None
  | UScores _ => match k with DG => None | _ => on (has_scores_lstm l && nn sz k nm) k end
  | _ => None
  end.
Definition at_gate (g : nat) (M : plan) : plan := fun k nm j =>
  match nm with W q | U q | LBiases q | WScores q | UScores q => if q =? g then M k nm j else None | _ => None end.
Lemma w_layer tau l c sz isz g j : l_at (r_l l) <> l_at (r_l c) -> fits (PL l c) sz isz -> g < 4 -> j < ls_out (l_cfg (r_l l)) * ls_in (l_cfg (r_l l)) ->
  Layer tau (l_at (r_l l)) (l_at (r_l c)) sz isz (slow_paste_w tau l c g j) (fun k nm i => if i =? j then at_gate g (w_plan l sz) k nm i else None).
Proof.
  intros Hsd [HV HO HB HC HI] Hg Hj. unfold slow_paste_w. fold (lstm_trains l).
  assert (Hg4 : (g <? 4) = true) by (by apply Nat.ltb_lt).
  assert (P1 : params (PL l c) (W g) = ls_out (l_cfg (r_l l)) * ls_in (l_cfg (r_l l))) by (cbn -[Nat.ltb]; by rewrite Hg4).
  assert (P2 : has_scores_lstm l = true -> params (PL l c) (WScores g) = ls_out (l_cfg (r_l l)) * ls_in (l_cfg (r_l l))) by (intros E; cbn -[Nat.ltb]; by rewrite Hg4, E).
  eapply Layer_ext; [intros; reflexivity| |
    leaves ltac:(
      match goal with
      | |- _ < sz Val ?nm => rewrite HV
      | |- sz ?k ?nm = 0 \/ _ => destruct (HO k nm) as [-> | ->]; [by left|right]
      | |- _ < isz _ => rewrite HI by done
      end; rewrite ?P1, ?P2 by done; done)].
  cases i; unfold at_gate, w_plan, union, only, cond, nothing, on, nn; cbn -[Nat.ltb]; try (by destruct (i =? j)); destruct (gq =? g) eqn:Eg; cbn -[Nat.ltb]; try (by destruct (i =? j));
    apply Nat.eqb_eq in Eg as ->; destruct (i =? j) eqn:Ej; cbn -[Nat.ltb]; try done; destruct (lstm_trains l), (has_scores_lstm l); cbn; try done; by destruct (negb _).
Qed.
Lemma u_layer tau l c sz isz g j : l_at (r_l l) <> l_at (r_l c) -> fits (PL l c) sz isz -> g < 4 -> j < ls_out (l_cfg (r_l l)) * ls_out (l_cfg (r_l l)) ->
  Layer tau (l_at (r_l l)) (l_at (r_l c)) sz isz (slow_paste_u tau l c g j) (fun k nm i => if i =? j then at_gate g (u_plan l sz) k nm i else None).
Proof.
  intros Hsd [HV HO HB HC HI] Hg Hj. unfold slow_paste_u. fold (lstm_trains l).
  assert (Hg4 : (g <? 4) = true) by (by apply Nat.ltb_lt).
  assert (P1 : params (PL l c) (U g) = ls_out (l_cfg (r_l l)) * ls_out (l_cfg (r_l l))) by (cbn -[Nat.ltb]; by rewrite Hg4).
  assert (P3 : params (PL l c) (LBiases g) = ls_out (l_cfg (r_l l))) by (cbn -[Nat.ltb]; by rewrite Hg4).
  assert (P2 : has_scores_lstm l = true -> params (PL l c) (UScores g) = ls_out (l_cfg (r_l l)) * ls_out (l_cfg (r_l l))) by (intros E; cbn -[Nat.ltb]; by rewrite Hg4, E).
  cbv zeta.
  eapply Layer_ext; [intros; reflexivity| |
    leaves ltac:(
      repeat match goal with H : (_ <? _) = true |- _ => apply Nat.ltb_lt in H end;
      match goal with
      | |- _ < sz Val ?nm => rewrite HV
      | |- sz ?k ?nm = 0 \/ _ => destruct (HO k nm) as [-> | ->]; [by left|right]
      | |- _ < isz _ => rewrite HI by done
      end; rewrite ?P1, ?P3, ?P2 by done; done)].
  cases i; unfold at_gate, u_plan, union, only, cond, nothing, on, nn; cbn -[Nat.ltb]; try (by destruct (i =? j)); destruct (gq =? g) eqn:Eg; cbn -[Nat.ltb]; try (by destruct (i =? j));
    apply Nat.eqb_eq in Eg as ->; destruct (i =? j) eqn:Ej; cbn -[Nat.ltb]; try done; apply Nat.eqb_eq in Ej as ->;
    destruct (lstm_trains l), (has_scores_lstm l), (j <? ls_out (l_cfg (r_l l))); cbn; try done; by destruct (negb _).
Qed.
Definition gate_plan (l : rnode) sz : plan := fun k nm j =>
  match nm with
  | W _ | WScores _ => if j <? ls_out (l_cfg (r_l l)) * ls_in (l_cfg (r_l l)) then w_plan l sz k nm j else None
  | _ => if j <? ls_out (l_cfg (r_l l)) * ls_out (l_cfg (r_l l)) then u_plan l sz k nm j else None
  end.
Lemma gate_layer tau l c sz isz g : l_at (r_l l) <> l_at (r_l c) -> same (PL l c) -> fits (PL l c) sz isz -> g < 4 ->
  Layer tau (l_at (r_l l)) (l_at (r_l c)) sz isz (fun h =>
        h ← for_loop (ls_out (l_cfg (r_l l)) * ls_in (l_cfg (r_l l))) 0 (slow_paste_w tau l c g) h;
        h ← for_loop (ls_out (l_cfg (r_l l)) * ls_out (l_cfg (r_l l))) 0 (slow_paste_u tau l c g) h;
        sort_lstm l c g h) (at_gate g (gate_plan l sz)).
Proof.
  intros Hsd Hs Hf Hg. pose proof Hs as (Ec & Eb & Ee & Ho). pose proof Hf as [HV HO HB HC HI].
  set (n := ls_out (l_cfg (r_l l))) in *. set (m := ls_in (l_cfg (r_l l))) in *.
  assert (Hsort : Layer tau (l_at (r_l l)) (l_at (r_l c)) sz isz (sort_lstm l c g) nothing).
  { unfold sort_lstm. rewrite Ec. fold n. fold m. apply Layer_if_nothing. intros E.
    assert (Hg4 : (g <? 4) = true) by (by apply Nat.ltb_lt).
    assert (P1 : params (PL l c) (WScores g) = n * m) by (cbn -[Nat.ltb]; by rewrite Hg4, E).
    assert (P2 : params (PL l c) (UScores g) = n * n) by (cbn -[Nat.ltb]; by rewrite Hg4, E).
    assert (Hnm : n * n <= n * m) by (apply Nat.mul_le_mono_l; by apply Ho).
    assert (HS : forall nm q, q <= isz (WScores g) -> (sz D nm = 0 \/ sz D nm = q) -> Layer tau (l_at (r_l l)) (l_at (r_l c)) sz isz
      (fun h => if nonnull (flt h (l_at (r_l l)) D nm) then sort_scores (l_at (r_l c)) D nm (WScores g) q h else Some h) nothing).
    { intros nm q Hq Hz. destruct (sz D nm =? 0) eqn:Ez.
      - eapply Layer_ext; [|done|apply Layer_nop]. intros h [L _]. rewrite nonnull_length. destruct (L D nm) as [-> _]. by rewrite Ez.
      - eapply Layer_ext; [|done|apply (Layer_sort tau (l_at (r_l l)) (l_at (r_l c)) Hsd sz isz D nm (WScores g) q)].
        + intros h [L _]. rewrite nonnull_length. destruct (L D nm) as [-> _]. by rewrite Ez.
        + done.
        + apply Nat.eqb_neq in Ez. lia.
        + done. }
    apply Layer_nothing; [done| |].
    - apply HS; [rewrite HI by done; lia|]. rewrite <- P1. apply HO.
    - apply HS; [rewrite HI by done; lia|]. rewrite <- P2. apply HO. }
  eapply Layer_ext; [intros; reflexivity| |apply Layer_seq'; [done| |apply Layer_seq'; [done| |exact Hsort|]|]].
  2: { apply (Layer_idx tau _ _ Hsd sz isz (n * m) _ (at_gate g (w_plan l sz))). intros j Hj. by apply w_layer. }
  2: { apply (Layer_idx tau _ _ Hsd sz isz (n * n) _ (at_gate g (u_plan l sz))). intros j Hj. by apply u_layer. }
  - intros k nm j. unfold union, nothing, at_gate, gate_plan. fold n. fold m.
    destruct nm as [| | | | |kq|bq|bq|gq|gq|gq|gq|gq]; cbn [w_plan u_plan]; destruct (j <? n * m), (j <? n * n); try done; destruct (gq =? g); try done;
    repeat match goal with |- context [match ?x with Some _ => _ | None => _ end] => destruct x end; done.
  - by right.
  - intros k nm j. unfold union, nothing, at_gate. destruct nm as [| | | | |kq|bq|bq|gq|gq|gq|gq|gq]; cbn [w_plan u_plan]; try (left; by destruct (j <? n * m)); try (left; destruct (j <? n * m); by destruct (gq =? g));
    right; destruct (j <? n * n); try done; by destruct (gq =? g).
Qed.
Definition gates_plan (l : rnode) sz : plan := fun k nm j =>
  match nm with W q | U q | LBiases q | WScores q | UScores q => if q <? 4 then gate_plan l sz k nm j else None | _ => None end.
Definition lstm_plan (l : rnode) sz : plan := union (gates_plan l sz) (bns_plan (l_bns (r_l l))).
Lemma lstm_layer tau l c sz isz : l_at (r_l l) <> l_at (r_l c) -> same (PL l c) -> fits (PL l c) sz isz ->
  Layer tau (l_at (r_l l)) (l_at (r_l c)) sz isz (slow_paste_lstm tau l c) (lstm_plan l sz).
Proof.
  intros Hsd Hs Hf. pose proof Hs as (Ec & Eb & Ee & Ho). pose proof Hf as [HV HO HB HC HI].
  unfold slow_paste_lstm, lstm_plan. cbv zeta. apply Layer_seq'; [done| | |].
  - eapply Layer_loop; [done|intros g Hg; by apply gate_layer|].
    intros k nm j. destruct nm as [| | | | |kq|bq|bq|gq|gq|gq|gq|gq]; cbn [at_gate gates_plan]; try (by left);
    (destruct (gq <? 4) eqn:E;
     [right; exists gq; split; [by apply Nat.ltb_lt|]; split; [by rewrite Nat.eqb_refl|]; intros i Hi Hne; by rewrite (proj2 (Nat.eqb_neq gq i)) by lia
     |left; split; [done|]; intros i Hi; apply Nat.ltb_ge in E; by rewrite (proj2 (Nat.eqb_neq gq i)) by lia]).
  - apply bns_layer; [done|]. intros b k [->|Hk]; [by rewrite !HV|]. by apply HB.
  - intros k nm j. destruct nm; cbn [gates_plan bns_plan]; by auto.
Qed.
Definition l2_plan : plan := fun k nm j => match nm with Gamma 0 => if j =? 0 then Some k else None | _ => None end.
Lemma l2_layer tau f g sz isz : s_at f <> s_at g -> fits (PS f g) sz isz -> Layer tau (s_at f) (s_at g) sz isz (slow_paste_l2 tau f g) l2_plan.
Proof.
  intros Hsd [HV HO HB HC HI]. unfold slow_paste_l2. cbv zeta.
  assert (HK : forall k, 0 < sz k (Gamma 0)) by (intros k; destruct (HB 0 k I) as [-> _]; cbn; lia).
  eapply Layer_ext; [intros; reflexivity| |leaves ltac:(apply HK)].
  cases j; unfold l2_plan, union, only; cbn; try done; by destruct bq, (j =? 0).
Qed.

(** ** Pairs of layers *)
Definition paste_pair (tau : R) (p : pair) : mem -> option mem :=
  match p with PF f g => slow_paste_fcl tau f g | PC f g => slow_paste_cl tau f g | PL f g => slow_paste_lstm tau f g | PS f g => slow_paste_l2 tau f g end.
Definition pair_plan (p : pair) sz : plan :=
  match p with PF f _ => fcl_plan f sz | PC f _ => cl_plan f sz | PL f _ => lstm_plan f sz | PS _ _ => l2_plan end.
Lemma pair_layer tau p sz isz : src p <> dst p -> same p -> fits p sz isz -> Layer tau (src p) (dst p) sz isz (paste_pair tau p) (pair_plan p sz).
Proof. destruct p; cbn [src dst paste_pair pair_plan]; intros; [by apply fcl_layer|by apply cl_layer|by apply lstm_layer|by apply l2_layer]. Qed.
Lemma nn_true (sz : kind -> name -> nat) k nm q : sz k nm = q -> 0 < q -> nn sz k nm = true.
Proof. intros E H. unfold nn. rewrite E. by rewrite (proj2 (Nat.eqb_neq q 0)) by lia. Qed.
Ltac ltb_true := repeat match goal with |- context [?a <? ?b] => rewrite (proj2 (Nat.ltb_lt a b)) by nia end.
Lemma pair_plan_val p sz nm i : same p -> (forall nm, sz Val nm = params p nm) -> i < params p nm -> pair_plan p sz Val nm i = Some Val.
Proof.
  intros Hs HV Hi. pose proof (HV nm) as Hz. assert (Hp : 0 < params p nm) by lia. pose proof (nn_true _ _ _ _ Hz Hp) as Hn. clear Hz Hp HV.
  destruct p as [f g|f g|f g|f g]; cbn [pair_plan].
  - destruct Hs as (_ & _ & Hin). unfold fcl_plan, union, fcl_plan_at, on. fold (nn sz Val nm). rewrite Hn.
    destruct nm as [| | | | |kq|bq|bq|gq|gq|gq|gq|gq]; cbn -[Nat.ltb] in Hi |- *; try lia;
    try (destruct (has_params f), (fl_noisy (f_cfg f)), (has_scores f); cbn -[Nat.ltb] in Hi |- *; try lia); ltb_true; try done;
    destruct bq; try lia; destruct (fl_norm (f_cfg f)); try lia; destruct (i <? fl_out (f_cfg f) * _); by ltb_true.
  - unfold cl_plan, union, cond. destruct nm as [| | | | |kq|bq|bq|gq|gq|gq|gq|gq]; cbn -[Nat.ltb] in Hi |- *; try lia.
    + destruct (has_scores_cl f); cbn -[Nat.ltb] in Hi |- *; [|lia]. rewrite (proj2 (Nat.ltb_lt _ _) Hi). by rewrite Hn.
    + destruct (cv_conv (c_cfg f)); cbn -[Nat.ltb] in Hi |- *; [|lia]. by rewrite (proj2 (Nat.ltb_lt _ _) Hi).
    + destruct (cv_conv (c_cfg f)); cbn -[Nat.ltb] in Hi |- *; [|lia]. destruct (kq <? _); [|lia]. unfold kernel_size. rewrite (proj2 (Nat.ltb_lt _ _) Hi). cbn. by rewrite Nat.eqb_refl.
    + by rewrite (proj2 (Nat.ltb_lt _ _) Hi).
    + by rewrite (proj2 (Nat.ltb_lt _ _) Hi).
  - unfold lstm_plan, union. destruct nm as [| | | | |kq|bq|bq|gq|gq|gq|gq|gq]; cbn -[Nat.ltb] in Hi |- *; try lia.
    + by rewrite (proj2 (Nat.ltb_lt _ _) Hi).
    + by rewrite (proj2 (Nat.ltb_lt _ _) Hi).
    + destruct (gq <? 4); [|lia]. by rewrite (proj2 (Nat.ltb_lt _ _) Hi).
    + destruct (gq <? 4); [|lia]. by rewrite (proj2 (Nat.ltb_lt _ _) Hi).
    + destruct (gq <? 4); [|lia]. by ltb_true.
    + destruct (has_scores_lstm f), (gq <? 4); cbn -[Nat.ltb] in Hi |- *; try lia. rewrite (proj2 (Nat.ltb_lt _ _) Hi). by rewrite Hn.
    + destruct (has_scores_lstm f), (gq <? 4); cbn -[Nat.ltb] in Hi |- *; try lia. rewrite (proj2 (Nat.ltb_lt _ _) Hi). by rewrite Hn.
  - destruct nm as [| | | | |kq|bq|bq|gq|gq|gq|gq|gq]; cbn in Hi |- *; try lia. destruct bq; [|lia]. by destruct i; [|lia].
Qed.
Lemma pair_soft tau p h : src p <> dst p -> same p -> laid_out h p -> exists h', paste_pair tau p h = Some h' /\ soft_updated tau [p] h h'.
Proof.
  intros Hsd Hs (L1 & L2 & L3 & L4 & L5 & L6).
  destruct (pair_layer tau p (fun k nm => length (flt h (src p) k nm)) (params p) Hsd Hs) with (h := h) as (h' & E & [LA LB] & F & G).
  - split; [done|done|done|done|done].
  - split; [|done]. intros k nm. split; [done|apply L5].
  - exists h'. split; [done|]. repeat split.
    + intros q nm i Hq%elem_of_list_singleton Hi. subst q. by rewrite G, (pair_plan_val _ _ _ _ Hs L1 Hi).
    + by apply F, H, elem_of_list_singleton.
    + by apply F, H, elem_of_list_singleton.
    + apply elem_of_list_singleton in H as ->. intros nm. by rewrite (proj1 (LA Val nm)).
    + apply elem_of_list_singleton in H as ->. intros k nm. by rewrite (proj1 (LA k nm)).
    + apply elem_of_list_singleton in H as ->. by rewrite (proj1 (LA k (Gamma b))), (proj1 (L3 b k H0)).
    + apply elem_of_list_singleton in H as ->. by rewrite (proj1 (LA k (Beta b))), (proj2 (L3 b k H0)).
    + apply elem_of_list_singleton in H as ->. intros k Hk. rewrite (proj1 (LA k Scores)), (proj1 (LA D Scores)). by apply L4.
    + apply elem_of_list_singleton in H as ->. intros k nm. by rewrite (proj1 (LA k nm)), (proj2 (LA k nm)).
    + apply elem_of_list_singleton in H as ->. by apply LB.
    + apply elem_of_list_singleton in H as ->. by apply LB.
Qed.

(** ** Sequences of pairs *)
Fixpoint run (tau : R) (ps : list pair) (h : mem) : option mem :=
  match ps with [] => Some h | p :: ps => h ← paste_pair tau p h; run tau ps h end.
Lemma run_app tau ps qs h : run tau (ps ++ qs) h = (h ← run tau ps h; run tau qs h).
Proof. revert h. induction ps as [|p ps IH]; intros h; [done|]. cbn [app run]. destruct (paste_pair tau p h); [|done]. apply IH. Qed.
Lemma run_one tau p h : run tau [p] h = paste_pair tau p h.
Proof. cbn. by destruct (paste_pair tau p h). Qed.
Lemma laid_out_same h h' p : (forall nm, (forall k, flt h' (src p) k nm = flt h (src p) k nm) /\ ints h' (src p) nm = ints h (src p) nm) ->
  (forall nm, (forall k, flt h' (dst p) k nm = flt h (dst p) k nm) /\ ints h' (dst p) nm = ints h (dst p) nm) -> laid_out h p -> laid_out h' p.
Proof.
  intros S T (L1 & L2 & L3 & L4 & L5 & L6). split; [|split; [|split; [|split; [|split]]]].
  - intros nm. by rewrite (proj1 (S nm)).
  - intros k nm. by rewrite (proj1 (S nm)).
  - intros b k. by rewrite (proj1 (S (Gamma b))), (proj1 (S (Beta b))); apply L3.
  - intros k. rewrite !(proj1 (S Scores)). apply L4.
  - intros k nm. by rewrite (proj1 (S nm)), (proj1 (T nm)).
  - intros nm. rewrite (proj2 (S nm)), (proj2 (T nm)). apply L6.
Qed.
Lemma run_soft tau ps : forall h, apart ps -> fits_in h ps -> exists h', run tau ps h = Some h' /\ soft_updated tau ps h h'.
Proof.
  induction ps as [|p ps IH]; intros h [Hn Ha] Hf.
  - exists h. split; [done|]. split; [|split]; [intros p nm i H; by apply not_elem_of_nil in H|done|intros p H; by apply not_elem_of_nil in H].
  - cbn [map] in Hn. apply list.NoDup_cons in Hn as [Hp Hn].
    assert (Hnp : forall q, q ∈ ps -> dst q <> dst p). { intros q Hq E. apply Hp. rewrite <- E. by apply elem_of_list_fmap_1. }
    destruct (Hf p) as [Hs Hl]; [by left|].
    destruct (pair_soft tau p h) as (h1 & E1 & V1 & F1 & L1); [by apply Ha; left|done|done|].
    assert (F1' : forall a, a <> dst p -> forall nm, (forall k, flt h1 a k nm = flt h a k nm) /\ ints h1 a nm = ints h a nm).
    { intros a H. apply F1. intros q Hq%elem_of_list_singleton. by subst q. }
    destruct (IH h1) as (h2 & E2 & V2 & F2 & L2).
    + split; [done|]. intros q r Hq Hr. apply Ha; by right.
    + intros q Hq. destruct (Hf q) as [Hs' Hl']; [by right|]. split; [done|].
      apply (laid_out_same h); [| |done]; apply F1'; [apply Ha; [by right|by left]|by apply Hnp].
    + exists h2. cbn [run]. rewrite E1. cbn [mbind option_bind]. split; [done|].
      assert (Fp : forall a, (a = src p \/ a = dst p) -> forall nm, (forall k, flt h2 a k nm = flt h1 a k nm) /\ ints h2 a nm = ints h1 a nm).
      { intros a H nm. apply F2. intros q Hq. destruct H as [-> | ->]; [apply Ha; [by left|by right]|]. intros E. by apply (Hnp q). }
      split; [|split].
      * intros q nm i [->|Hq]%elem_of_cons Hi.
        -- unfold get at 1. rewrite (proj1 (Fp (dst p) (or_intror eq_refl) nm)). apply V1; [by apply elem_of_list_singleton|done].
        -- rewrite (V2 q nm i Hq Hi). unfold get. rewrite (proj1 (F1' (src q) ltac:(apply Ha; [by right|by left]) nm)), (proj1 (F1' (dst q) (Hnp q Hq) nm)). done.
      * intros a H nm. destruct (F2 a) with (nm := nm) as [A B]; [intros q Hq; apply H; by right|].
        destruct (F1' a ltac:(apply H; by left) nm) as [A1 B1]. split; [intros k; by rewrite A|by rewrite B].
      * intros q [->|Hq]%elem_of_cons; [|by apply L2]. apply (laid_out_same h1); [apply Fp; by left|apply Fp; by right|]. apply L1. by apply elem_of_list_singleton.
Qed.

(** ** Networks *)
Lemma loop_run tau body : forall (Ls : list (list pair)) i0 h, (forall i L h, Ls !! i = Some L -> body (i0 + i) h = run tau L h) -> for_loop (length Ls) i0 body h = run tau (concat Ls) h.
Proof.
  induction Ls as [|L Ls IH]; intros i0 h H; [done|]. cbn [length for_loop concat]. rewrite run_app. rewrite <- (H 0 L h eq_refl), Nat.add_0_r.
  destruct (body i0 h) as [h1|]; [|done]. cbn [mbind option_bind]. apply IH. intros i L' h' E. rewrite <- (H (S i) L' h' E). f_equal. lia.
Qed.
Lemma over2_run {A} tau (a b : list A) body F h : Forall2 (fun x y => forall h, body x y h = run tau (F x y) h) a b -> over2 a b body h = run tau (concat (zip_with F a b)) h.
Proof.
  intros H. pose proof (Forall2_length _ _ _ H) as Hl. unfold over2.
  replace (length a) with (length (zip_with F a b)) by (rewrite zip_with_length; lia).
  apply loop_run. intros i L h' E. apply lookup_zip_with_Some in E as (x & y & -> & Ex & Ey). cbn. unfold rd. rewrite Ex, Ey. cbn.
  by apply (Forall2_lookup_lr _ _ _ _ _ _ H Ex Ey).
Qed.
Lemma concat_single {A B C} (F : A -> B -> C) a b : concat (zip_with (fun x y => [F x y]) a b) = zip_with F a b.
Proof. revert b. induction a as [|x a IH]; intros [|y b]; [done..|]. cbn. by rewrite IH. Qed.
Lemma concat_zip {A B C} (F : A -> B -> C) : forall a b, map length b = map length a -> concat (zip_with (zip_with F) a b) = zip_with F (concat a) (concat b).
Proof.
  induction a as [|x a IH]; intros [|y b] E; try done. cbn in E |- *. injection E as E1 E2. rewrite IH by done. rewrite zip_with_app by done. done.
Qed.
Lemma Forall2_any {A B} (P : A -> B -> Prop) a b : length b = length a -> (forall x y, P x y) -> Forall2 P a b.
Proof. revert b. induction a as [|x a IH]; intros [|y b] E H; try discriminate E; [constructor|]. constructor; [done|]. apply IH; [by injection E|done]. Qed.
Lemma model_run tau m c h : alike m c -> slow_paste_model tau m c h = run tau (model_pairs m c) h.
Proof.
  intros (E1 & E2 & E3). unfold slow_paste_model, model_pairs. rewrite !run_app.
  rewrite (over2_run tau _ _ _ (fun x y => [PF x y])) by (apply Forall2_any; [done|intros; by rewrite run_one]). rewrite concat_single.
  destruct (run tau (zip_with PF (fcls m) (fcls c)) h) as [h1|]; [|done]. cbn [mbind option_bind]. rewrite run_app.
  rewrite (over2_run tau _ _ _ (fun x y => [PC x y])) by (apply Forall2_any; [done|intros; by rewrite run_one]). rewrite concat_single.
  destruct (run tau (zip_with PC (cls m) (cls c)) h1) as [h2|]; [|done]. cbn [mbind option_bind].
  rewrite <- (concat_zip PC) by done. apply over2_run.
  clear - E3. revert E3. generalize (rls c). induction (rls m) as [|r l IH]; intros [|r2 l2] E; try discriminate E; [constructor|]. cbn in E. injection E as E1 E2.
  constructor; [|by apply IH]. intros h. rewrite (over2_run tau _ _ _ (fun x y => [PC x y])) by (apply Forall2_any; [done|intros; by rewrite run_one]). by rewrite concat_single.
Qed.
Lemma rmodel_run tau m c h : length c = length m -> slow_paste_rmodel tau m c h = run tau (zip_with PL m c) h.
Proof. intros E. unfold slow_paste_rmodel. rewrite (over2_run tau _ _ _ (fun x y => [PL x y])) by (apply Forall2_any; [done|intros; by rewrite run_one]). by rewrite concat_single. Qed.
Lemma l2_run tau a b h : length b = length a -> over2 a b (slow_paste_l2 tau) h = run tau (zip_with PS a b) h.
Proof. intros E. rewrite (over2_run tau _ _ _ (fun x y => [PS x y])) by (apply Forall2_any; [done|intros; by rewrite run_one]). by rewrite concat_single. Qed.
Ltac seq_run := match goal with |- (x ← ?a; _) = (x ← ?a; _) => destruct a as [?h|]; [cbn [mbind option_bind]|done] end.
Lemma dqn_run tau m c h : alike_dqn m c -> slow_paste_dqn tau m c h = run tau (dqn_pairs m c) h.
Proof.
  intros (A1 & A2 & A3 & A4 & A5). unfold slow_paste_dqn, dqn_pairs. rewrite run_app, model_run by done. seq_run. rewrite run_app, model_run by done. seq_run.
  rewrite run_app, model_run by done. seq_run. rewrite run_app, model_run by done. seq_run. by apply model_run.
Qed.
Lemma vae_run tau m c h : alike_vae m c -> slow_paste_vae tau m c h = run tau (vae_pairs m c) h.
Proof. intros (A1 & A2). unfold slow_paste_vae, vae_pairs. rewrite run_app, model_run by done. seq_run. by apply model_run. Qed.
Lemma heads_run tau n q q2 k k2 v v2 h : alike_heads n q q2 k k2 v v2 -> slow_paste_heads tau n q q2 k k2 v v2 h = run tau (head_pairs q q2 k k2 v v2) h.
Proof.
  intros (L1 & L2 & L3 & F1 & F2 & F3). unfold slow_paste_heads, head_pairs.
  pose proof (Forall2_length _ _ _ F1). pose proof (Forall2_length _ _ _ F2). pose proof (Forall2_length _ _ _ F3).
  set (Ls := zip_with _ _ _). replace n with (length Ls) by (unfold Ls; rewrite zip_with_length, !zip_with_length; lia).
  apply loop_run. intros i L h' E. unfold Ls in E. apply lookup_zip_with_Some in E as ([[x y] z] & [[x2 y2] z2] & -> & Ex & Ey). cbn.
  apply lookup_zip_with_Some in Ex as (? & ? & [= <- <-] & Ex & Ez). apply lookup_zip_with_Some in Ex as (? & ? & [= <- <-] & Ex & Exy).
  apply lookup_zip_with_Some in Ey as (? & ? & [= <- <-] & Ey & Ez2). apply lookup_zip_with_Some in Ey as (? & ? & [= <- <-] & Ey & Eyy).
  cbn in *. unfold rd. rewrite Ex, Ey, Exy, Eyy, Ez, Ez2. cbn.
  pose proof (Forall2_lookup_lr _ _ _ _ _ _ F1 Ex Ey). pose proof (Forall2_lookup_lr _ _ _ _ _ _ F2 Exy Eyy). pose proof (Forall2_lookup_lr _ _ _ _ _ _ F3 Ez Ez2).
  rewrite run_app, model_run by done. seq_run. rewrite run_app, model_run by done. seq_run. by apply model_run.
Qed.
Lemma encoder_run tau t c h : alike_encoder t c -> slow_paste_encoder tau t c h = run tau (encoder_pairs t c) h.
Proof.
  intros (A1 & A2 & A3 & A4). unfold slow_paste_encoder, encoder_pairs. rewrite run_app, heads_run by done. seq_run. rewrite run_app, l2_run by done. seq_run.
  rewrite run_app, model_run by done. seq_run. by apply model_run.
Qed.
Lemma decoder_run tau t c h : alike_decoder t c -> slow_paste_decoder tau t c h = run tau (decoder_pairs t c) h.
Proof.
  intros (A1 & A2 & A3 & A4). unfold slow_paste_decoder, decoder_pairs. rewrite run_app, heads_run by done. seq_run. rewrite run_app, l2_run by done. seq_run.
  rewrite run_app, encoder_run by done. seq_run. by apply model_run.
Qed.
Lemma transformer_run tau t c h : alike_transformer t c -> slow_paste_transformer tau t c h = run tau (transformer_pairs t c) h.
Proof.
  intros (A1 & A2). unfold slow_paste_transformer, transformer_pairs. rewrite run_app, (over2_run tau _ _ _ encoder_pairs).
  - seq_run. apply over2_run. eapply Forall2_impl; [exact A2|]. intros; by apply decoder_run.
  - eapply Forall2_impl; [exact A1|]. intros; by apply encoder_run.
Qed.

(** ** Histories *)
Definition updates (tau : R) (ps : list pair) (upd : mem -> option mem) : Prop := forall h, upd h = run tau ps h.
Lemma fits_next tau ps h h' : soft_updated tau ps h h' -> fits_in h ps -> fits_in h' ps.
Proof. intros (_ & _ & L) Hf p Hp. split; [by apply Hf|by apply L]. Qed.
Lemma src_frame tau ps h h' p : apart ps -> soft_updated tau ps h h' -> p ∈ ps -> forall nm k, flt h' (src p) k nm = flt h (src p) k nm.
Proof. intros [_ Ha] (_ & F & _) Hp nm k. apply F. intros q Hq. by apply Ha. Qed.
Lemma history_step tau ps upd h hs : updates tau ps upd -> apart ps -> fits_in h ps -> history upd h hs ->
  forall n, fits_in (hs n) ps /\ soft_updated tau ps (hs n) (hs (S n)).
Proof.
  intros Hu Ha Hf [H0 HS]. assert (H : forall n, fits_in (hs n) ps -> soft_updated tau ps (hs n) (hs (S n))).
  { intros n Hn. destruct (run_soft tau ps (hs n) Ha Hn) as (h' & E & S). pose proof (HS n) as E2. rewrite Hu, E in E2. injection E2 as <-. done. }
  assert (Hfn : forall n, fits_in (hs n) ps). { induction n as [|n IH]; [by rewrite H0|]. eapply fits_next; [by apply H|done]. }
  intros n. split; [apply Hfn|]. apply H, Hfn.
Qed.
Lemma history_value tau ps upd h hs : updates tau ps upd -> apart ps -> fits_in h ps -> history upd h hs ->
  forall n p nm i, p ∈ ps -> i < params p nm ->
    get (hs n) (src p) Val nm i = get h (src p) Val nm i /\
    get (hs n) (dst p) Val nm i = (get h (src p) Val nm i + (1 - tau) ^ n * (get h (dst p) Val nm i - get h (src p) Val nm i))%R.
Proof.
  intros Hu Ha Hf Hh n p nm i Hp Hi. pose proof (history_step tau ps upd h hs Hu Ha Hf Hh) as St. destruct Hh as [H0 HS].
  induction n as [|n [IH1 IH2]]; [rewrite H0; split; [done|cbn; lra]|]. destruct (St n) as [_ S]. split.
  - rewrite <- IH1. unfold get. by rewrite (src_frame tau ps _ _ p Ha S Hp).
  - destruct S as (V & _ & _). rewrite (V p nm i Hp Hi), IH1, IH2. change ((1 - tau) ^ Datatypes.S n)%R with ((1 - tau) * (1 - tau) ^ n)%R. ring.
Qed.
Lemma history_exists tau ps upd h : updates tau ps upd -> apart ps -> fits_in h ps -> exists hs, history upd h hs.
Proof.
  intros Hu Ha Hf. set (hs := fix hs n := match n with 0 => h | S n => default (hs n) (upd (hs n)) end).
  assert (H : forall n, fits_in (hs n) ps /\ upd (hs n) = Some (hs (S n))).
  { induction n as [|n [IH E]].
    - split; [done|]. cbn. destruct (run_soft tau ps h Ha Hf) as (h' & E & _). rewrite Hu, E. done.
    - assert (Hn : fits_in (hs (S n)) ps). { destruct (run_soft tau ps (hs n) Ha IH) as (h' & E' & S1). assert (Eh : Some (hs (Datatypes.S n)) = Some h') by (rewrite <- E, <- E'; apply Hu). apply (fits_next tau ps (hs n)); [|done]. by replace (hs (Datatypes.S n)) with h' by congruence. }
      split; [done|]. destruct (run_soft tau ps (hs (S n)) Ha Hn) as (h' & E' & _). change (hs (S (S n))) with (default (hs (S n)) (upd (hs (S n)))). by rewrite Hu, E'. }
  exists hs. split; [done|]. intros n. by apply H.
Qed.

Lemma pow_unit x n : (0 <= x <= 1)%R -> (0 <= x ^ n <= 1)%R.
Proof. intros H. split; [apply pow_le; lra|]. rewrite <- (pow1 n). apply pow_incr. lra. Qed.
Lemma history_tracks tau ps upd h : updates tau ps upd -> apart ps -> fits_in h ps -> tracks tau ps upd h.
Proof.
  intros Hu Ha Hf. split; [by eapply history_exists|]. intros hs Hh p nm i Hp Hi s x x0.
  assert (Hv : forall n, get (hs n) (src p) Val nm i = s /\ x n = (s + (1 - tau) ^ n * (x0 - s))%R).
  { intros n. by apply (history_value tau ps upd h hs). }
  split; [done|]. split.
  - intros Ht n. rewrite (proj2 (Hv n)), (proj2 (Hv (S n))). pose proof (pow_unit (1 - tau) n ltac:(lra)) as Hpn. set (q := ((1 - tau) ^ n)%R) in *.
    change ((1 - tau) ^ S n)%R with ((1 - tau) * q)%R. split.
    + unfold Rmin, Rmax. destruct (Rle_dec s x0); nra.
    + replace (s + (1 - tau) * q * (x0 - s) - s)%R with ((1 - tau) * (q * (x0 - s)))%R by ring. replace (s + q * (x0 - s) - s)%R with (q * (x0 - s))%R by ring.
      rewrite Rabs_mult, (Rabs_pos_eq (1 - tau)) by lra. pose proof (Rabs_pos (q * (x0 - s))). nra.
  - intros Ht eps He. destruct (pow_lt_1_zero (1 - tau)) with (y := (eps / (Rabs (x0 - s) + 1))%R) as [N HN].
    + rewrite Rabs_pos_eq; lra.
    + apply Rdiv_lt_0_compat; [lra|]. pose proof (Rabs_pos (x0 - s)). lra.
    + exists N. intros n Hn. unfold R_dist. rewrite (proj2 (Hv n)). replace (s + (1 - tau) ^ n * (x0 - s) - s)%R with ((1 - tau) ^ n * (x0 - s))%R by ring.
      rewrite Rabs_mult. specialize (HN n Hn). pose proof (Rabs_pos (x0 - s)) as Hx. pose proof (Rabs_pos ((1 - tau) ^ n)) as Hq.
      apply Rle_lt_trans with (Rabs ((1 - tau) ^ n) * (Rabs (x0 - s) + 1))%R; [nra|].
      apply Rlt_le_trans with (eps / (Rabs (x0 - s) + 1) * (Rabs (x0 - s) + 1))%R; [apply Rmult_lt_compat_r; lra|]. right. field. lra.
Qed.

(** ** The sort over too few indices *)
Lemma merge_seg_length den values ind l m r ind' : merge_seg den values ind l m r = Some ind' -> length ind' = length ind /\ r < length ind.
Proof.
  intros E. unfold merge_seg in E. destruct (decide _) as [(H1 & H2 & H3)|]; [|done].
  destruct (merge_seg_perm den values ind l m r H1 H2 H3) as (i3 & E3 & P & _). unfold merge_seg in E3. rewrite decide_True in E3 by done. rewrite E in E3. injection E3 as <-.
  split; [by apply Permutation_length|done].
Qed.
Lemma merge_sort_length den : forall fuel values ind lo hi ind', merge_sort den fuel values ind lo hi = Some ind' -> length ind' = length ind.
Proof.
  induction fuel as [|fuel IH]; intros values ind lo hi ind' E; [done|]. cbn [merge_sort] in E. case_decide; [|by injection E as <-].
  destruct (merge_sort den fuel values ind lo _) as [i1|] eqn:E1; [|done]. cbn [mbind option_bind] in E. destruct (merge_sort den fuel values i1 _ hi) as [i2|] eqn:E2; [|done]. cbn [mbind option_bind] in E.
  apply merge_seg_length in E as [E _]. apply IH in E1, E2. lia.
Qed.
Lemma merge_sort_oob den fuel values ind lo hi : lo < hi -> length ind <= hi -> merge_sort den fuel values ind lo hi = None.
Proof.
  intros H1 H2. destruct fuel as [|fuel]; [done|]. cbn [merge_sort]. rewrite decide_True by done.
  destruct (merge_sort den fuel values ind lo _) as [i1|] eqn:E1; [|done]. cbn [mbind option_bind]. destruct (merge_sort den fuel values i1 _ hi) as [i2|] eqn:E2; [|done]. cbn [mbind option_bind].
  destruct (merge_seg den values i2 lo _ hi) as [i3|] eqn:E; [|done]. apply merge_seg_length in E as [_ E]. apply merge_sort_length in E1, E2. lia.
Qed.
Lemma lstm_stuck tau l c h :
  let n := ls_out (l_cfg (r_l l)) in let m := ls_in (l_cfg (r_l l)) in
  l_at (r_l l) <> l_at (r_l c) -> l_cfg (r_l c) = l_cfg (r_l l) -> has_scores_lstm l = true -> laid_out h (PL l c) ->
  length (flt h (l_at (r_l l)) D (UScores 0)) <> 0 -> m < n -> 2 <= n -> slow_paste_lstm tau l c h = None.
Proof.
  intros n m Hsd Ec Hsc HL Hu Hmn Hn.
  assert (Hg : forall h2, length (ints h2 (l_at (r_l c)) (WScores 0)) = n * m -> length (flt h2 (l_at (r_l l)) D (UScores 0)) <> 0 -> sort_lstm l c 0 h2 = None).
  { intros h2 Hi Hd. unfold sort_lstm, if_. rewrite Hsc, Ec. fold n. fold m.
    match goal with |- (x ← ?a; _) = None => destruct a as [h3|] eqn:E3; [|done] end. cbn [mbind option_bind].
    assert (Hk : length (ints h3 (l_at (r_l c)) (WScores 0)) = n * m /\ length (flt h3 (l_at (r_l l)) D (UScores 0)) <> 0).
    { destruct (nonnull _); [|by injection E3 as <-]. unfold sort_scores in E3. destruct (n * m) as [|q]; [by injection E3 as <-|].
      destruct (merge_sort _ _ _ _ _ _) as [i|] eqn:Em; [|done]. injection E3 as <-. apply merge_sort_length in Em. rewrite ints_set, decide_True by done. split; [lia|done]. }
    destruct Hk as [Hk1 Hk2]. rewrite nonnull_length. rewrite (proj2 (Nat.eqb_neq _ _) Hk2). cbn [negb]. unfold sort_scores.
    destruct (n * n) as [|q] eqn:Eq; [nia|]. rewrite merge_sort_oob; [done|nia|]. rewrite Hk1. nia. }
  destruct HL as (L1 & L2 & L3 & L4 & L5 & L6).
  set (sz := fun k nm => length (flt h (l_at (r_l l)) k nm)). set (isz := params (PL l c)).
  assert (Hf : fits (PL l c) sz isz) by done.
  assert (HL : Lay (l_at (r_l l)) (l_at (r_l c)) sz isz h). { split; [|done]. intros k nm. split; [done|apply L5]. }
  unfold slow_paste_lstm. cbv zeta. fold n. fold m. change 4 with (S 3). cbn [for_loop].
  destruct (Layer_idx tau (l_at (r_l l)) (l_at (r_l c)) Hsd sz isz (n * m) (slow_paste_w tau l c 0) (at_gate 0 (w_plan l sz))) with (h := h) as (h1 & E1 & HL1 & _); [|done|].
  { intros j Hj. apply w_layer; [done|done|lia|done]. }
  destruct (Layer_idx tau (l_at (r_l l)) (l_at (r_l c)) Hsd sz isz (n * n) (slow_paste_u tau l c 0) (at_gate 0 (u_plan l sz))) with (h := h1) as (h2 & E2 & HL2 & _); [|done|].
  { intros j Hj. apply u_layer; [done|done|lia|done]. }
  rewrite E1. cbn [mbind option_bind]. rewrite E2. cbn [mbind option_bind]. rewrite Hg; [done| |].
  - destruct HL2 as [_ I2]. rewrite (proj2 (I2 (WScores 0) eq_refl)). unfold isz. cbn. by rewrite Hsc.
  - destruct HL2 as [A2 _]. rewrite (proj1 (A2 D (UScores 0))). done.
Qed.
