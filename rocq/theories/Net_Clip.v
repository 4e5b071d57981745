From Coq Require Import R_sqrt.
From Verif Require Import NumLib Upd_Model Upd_Spec Net_Model Net_Spec Net_Proofs.
Open Scope nat_scope.

Lemma concat_map_app {A B} (f g : A -> list B) l : concat (map (fun i => f i ++ g i) l) ≡ₚ concat (map f l) ++ concat (map g l).
Proof. induction l as [|x l IH]; cbn; [done|]. rewrite IH. by solve_Permutation. Qed.
Lemma concat_map_single {A B} (g : A -> B) l : concat (map (fun i => [g i]) l) = map g l.
Proof. induction l as [|x l IH]; cbn; [done|by rewrite IH]. Qed.
Lemma concat_map_nil {A B} (f : A -> list B) l : (forall x, x ∈ l -> f x = []) -> concat (map f l) = [].
Proof. induction l as [|x l IH]; cbn; intros H; [done|]. rewrite H by left. cbn. apply IH. intros. apply H. by right. Qed.
Lemma concat_map_perm {A B} (f g : A -> list B) l : (forall x, x ∈ l -> f x ≡ₚ g x) -> concat (map f l) ≡ₚ concat (map g l).
Proof. induction l as [|x l IH]; cbn; intros H; [done|]. rewrite (H x) by left. rewrite IH; [done|]. intros. apply H. by right. Qed.
Lemma concat_map_ext {A B} (f g : A -> list B) l : (forall x, x ∈ l -> f x = g x) -> concat (map f l) = concat (map g l).
Proof. induction l as [|x l IH]; cbn; intros H; [done|]. rewrite (H x) by left. rewrite IH; [done|]. intros. apply H. by right. Qed.
Lemma concat_map_prefix {B} (g : nat -> B) n m : n <= m ->
  concat (map (fun j => if decide (j < n) then [g j] else []) (seq 0 m)) = map g (seq 0 n).
Proof.
  intros H. replace m with (n + (m - n)) by lia. rewrite seq_app, map_app, concat_app. rewrite (concat_map_nil _ (seq (0 + n) _)).
  - rewrite app_nil_r. rewrite <- (concat_map_single g). apply concat_map_ext. intros x Hx. apply elem_of_seq in Hx. rewrite decide_True by lia. done.
  - intros x Hx. apply elem_of_seq in Hx. rewrite decide_False by lia. done.
Qed.

Ltac bd := repeat match goal with |- context [bool_decide ?P] =>
  first [rewrite (bool_decide_eq_true_2 P) by naive_solver | rewrite (bool_decide_eq_false_2 P) by naive_solver] end.

Ltac dm := repeat match goal with |- context [decide (?a = ?b)] =>
  first [destruct (decide (a = b)) as [_|Hdm]; [|exfalso; apply Hdm; reflexivity] | destruct (decide (a = b)) as [Hdm|_]; [discriminate Hdm|]] end.

(** the entries visited by both passes, in program order *)
Definition both_visit (a b n : nat) : list slot := concat (map (fun z => [(a, Gamma b, z)] ++ [(a, Beta b, z)]) (seq 0 n)).
Definition bn_visit (a : nat) (bns : list bnl) (b : nat) : list slot :=
  match bns !! b with Some x => if bnl_train x then both_visit a b (bnl_dim x) else [] | None => [] end.
Definition bns_visit (a : nat) (bns : list bnl) : list slot := concat (map (bn_visit a bns) (seq 0 (length bns))).
Definition fcl_visit (f : fnode) : list slot :=
  let c := f_cfg f in let a := f_at f in
  if fl_only_dropout c then [] else
  match fl_mode c with
  | GRADIENT_DESCENT => concat (map (fun j => [(a, Weights, j)] ++ (if decide (j < fl_out c) then [(a, Biases, j)] else [])) (seq 0 (fl_out c * fl_in c)))
  | EDGE_POPUP => arr a Scores (fl_out c * fl_in c)
  | _ => []
  end.
Definition cl_visit (f : cnode) : list slot :=
  let c := c_cfg f in let a := c_at f in
  if cv_conv c then
  match cv_mode c with
  | GRADIENT_DESCENT => concat (map (fun k => arr a (Kernel k) (cv_channels c * cv_rows c * cv_cols c) ++ [(a, Biases, k)]) (seq 0 (cv_kernels c))) ++ bns_visit a (cv_group c)
  | EDGE_POPUP => arr a Scores (cv_kernels c * cv_channels c * cv_rows c * cv_cols c)
  | _ => []
  end else [].

Lemma fcl_visit_slots f : fcl_plain f -> fcl_visit f ≡ₚ fcl_slots f.
Proof.
  intros (Hn & Hm & Hb & Hi). unfold fcl_visit, fcl_slots, slots. cbn [map concat fcl_trains fcl_sizes]. unfold fcl_trains. rewrite Hn, Hm.
  destruct (fl_only_dropout (f_cfg f)); [done|]. rewrite !andb_false_r. cbn [negb andb].
  destruct (fl_mode (f_cfg f)); try done; bd; cbn [andb negb]; rewrite ?app_nil_l.
  - rewrite concat_map_app, concat_map_single, concat_map_prefix by nia. unfold arr. by rewrite app_nil_r.
  - by rewrite app_nil_r.
Qed.
Lemma both_visit_arr a b n : both_visit a b n ≡ₚ arr a (Gamma b) n ++ arr a (Beta b) n.
Proof. unfold both_visit. rewrite concat_map_app, !concat_map_single. done. Qed.
Lemma slots_app a n1 n2 t sz : slots a (n1 ++ n2) t sz = slots a n1 t sz ++ slots a n2 t sz.
Proof. unfold slots. by rewrite map_app, concat_app. Qed.
Lemma slots_groups a n t sz : slots a (groups n) t sz =
  concat (map (fun b => (if t (Gamma b) then arr a (Gamma b) (sz (Gamma b)) else []) ++ (if t (Beta b) then arr a (Beta b) (sz (Beta b)) else [])) (seq 0 n)).
Proof.
  unfold slots, groups. generalize (seq 0 n). induction l as [|x l IH]; cbn; [done|]. rewrite IH. by rewrite app_assoc.
Qed.
Lemma slots_map a (nm : nat -> name) l t sz : slots a (map nm l) t sz = concat (map (fun k => if t (nm k) then arr a (nm k) (sz (nm k)) else []) l).
Proof. unfold slots. by rewrite map_map. Qed.
Lemma bns_visit_groups a bns t sz : (forall b, b < length bns -> t (Gamma b) = group_trains bns b /\ t (Beta b) = group_trains bns b /\ sz (Gamma b) = group_dim bns b /\ sz (Beta b) = group_dim bns b) ->
  bns_visit a bns ≡ₚ slots a (groups (length bns)) t sz.
Proof.
  intros H. rewrite slots_groups. unfold bns_visit. apply concat_map_perm. intros b Hb. apply elem_of_seq in Hb. destruct (H b) as (-> & -> & -> & ->); [lia|].
  unfold bn_visit, group_trains, group_dim. destruct (bns !! b) as [x|] eqn:E; [|done]. destruct (bnl_train x); [|done]. apply both_visit_arr.
Qed.
Lemma slots_none a ns t sz : (forall nm, nm ∈ ns -> t nm = false) -> slots a ns t sz = [].
Proof. intros H. unfold slots. apply concat_map_nil. intros nm Hn. by rewrite H. Qed.
Lemma cl_visit_slots f : cl_plain f -> cl_visit f ≡ₚ cl_slots f.
Proof.
  intros Hb. unfold cl_visit, cl_slots. unfold cl_plain in Hb. set (c := c_cfg f) in *. set (a := c_at f).
  destruct (cv_conv c) eqn:Ec; [|rewrite slots_none; [done|]; intros nm _; unfold cl_trains; by rewrite Ec].
  rewrite !slots_app, slots_map.
  destruct (cv_mode c) eqn:Em; try done.
  - rewrite concat_map_app, concat_map_single. change [Biases; Scores] with ([Biases] ++ [Scores]). rewrite slots_app. unfold slots at 1 2. cbn [map concat]. unfold cl_trains at 2 3. rewrite Ec, Em. bd. cbn. rewrite !app_nil_r.
    rewrite (concat_map_ext (fun k => if cl_trains c (Kernel k) then _ else _) (fun k => arr a (Kernel k) (cv_channels c * cv_rows c * cv_cols c))).
    2:{ intros k Hk. apply elem_of_seq in Hk. unfold cl_trains. rewrite Ec, Em. rewrite bool_decide_eq_true_2 by (split; [lia|by left]). done. }
    rewrite <- app_assoc. apply Permutation_app_head, Permutation_app_head. apply bns_visit_groups. intros b Hb'. unfold cl_trains. rewrite Ec, Em. bd. done.
  - rewrite (concat_map_nil _ (seq _ _)).
    2:{ intros k Hk. unfold cl_trains. rewrite Ec, Em. rewrite bool_decide_eq_false_2 by (intros [_ [?|?]]; done). done. }
    change [Biases; Scores] with ([Biases] ++ [Scores]). rewrite slots_app. unfold slots at 1 2. cbn [map concat]. unfold cl_trains at 1 2. rewrite Ec, Em. bd. cbn. rewrite !app_nil_r.
    rewrite slots_none; [by rewrite app_nil_r|]. intros nm Hn. unfold groups in Hn. apply elem_of_list_In, in_concat in Hn as (l & Hl & Hn). apply in_map_iff in Hl as (b & <- & _). unfold cl_trains. rewrite Ec, Em.
    cbn in Hn. destruct Hn as [<-|[<-|[]]]; done.
  - rewrite (concat_map_nil _ (seq _ _)).
    2:{ intros k Hk. unfold cl_trains. rewrite Ec, Em. rewrite bool_decide_eq_false_2 by (intros [_ [?|?]]; done). done. }
    rewrite !slots_none; [done|..].
    + intros nm Hn. unfold groups in Hn. apply elem_of_list_In, in_concat in Hn as (l & Hl & Hn). apply in_map_iff in Hl as (b & <- & _). unfold cl_trains. rewrite Ec, Em.
      cbn in Hn. destruct Hn as [<-|[<-|[]]]; done.
    + intros nm Hn. unfold cl_trains. rewrite Ec, Em. rewrite !elem_of_cons in Hn. destruct Hn as [->|[->|Hn]]; try done. by apply not_elem_of_nil in Hn.
  - rewrite (concat_map_nil _ (seq _ _)).
    2:{ intros k Hk. unfold cl_trains. rewrite Ec, Em. rewrite bool_decide_eq_false_2 by (intros [_ [?|?]]; done). done. }
    rewrite !slots_none; [done|..].
    + intros nm Hn. unfold groups in Hn. apply elem_of_list_In, in_concat in Hn as (l & Hl & Hn). apply in_map_iff in Hl as (b & <- & _). unfold cl_trains. rewrite Ec, Em.
      cbn in Hn. destruct Hn as [<-|[<-|[]]]; done.
    + intros nm Hn. unfold cl_trains. rewrite Ec, Em. rewrite !elem_of_cons in Hn. destruct Hn as [->|[->|Hn]]; try done. by apply not_elem_of_nil in Hn.
Qed.

Section sz.
Context (sz : nat -> name -> nat).
Section sums.
Context (h : heap) (Hh : shaped sz h).
Notation Sums := (Sums sz h).
Lemma Sums_both a b n : Sums (for_loop n 0 (fun j s => s ← sqr h a (Gamma b) j s; sqr h a (Beta b) j s)) (both_visit a b n).
Proof. apply Sums_loop. intros. apply Sums_seq; by apply Sums_sqr. Qed.
Lemma Sums_bn_body a bns b : b < length bns -> Sums (fun s => x ← rd bns b;
    if bnl_train x then for_loop (bnl_dim x) 0 (fun j s => s ← sqr h a (Gamma b) j s; sqr h a (Beta b) j s) s else Some s) (bn_visit a bns b).
Proof.
  intros Hb. destruct (lookup_lt_is_Some_2 bns b Hb) as [x Hx]. unfold bn_visit. rewrite Hx.
  eapply Sums_eq; [intros s; unfold rd; rewrite Hx; cbn [mbind option_bind]; reflexivity|]. destruct (bnl_train x); [apply Sums_both|apply Sums_id].
Qed.
Lemma Sums_fcl f : fcl_plain f -> Sums (sum_fcl h f) (fcl_visit f).
Proof.
  intros (Hn & Hm & Hb & Hi). unfold fcl_visit, sum_fcl. rewrite Hm. destruct (fl_only_dropout (f_cfg f)); [apply Sums_id|].
  destruct (fl_mode (f_cfg f)); dm; try done.
  - eapply Sums_eq; [|apply (Sums_loop _ _ (fl_out (f_cfg f) * fl_in (f_cfg f)) 0 (fun j s => s ← sqr h (f_at f) Weights j s; if decide (j < fl_out (f_cfg f)) then sqr h (f_at f) Biases j s else Some s))].
    + intros s. destruct (for_loop _ _ _ s); done.
    + intros j _. apply Sums_seq; [by apply Sums_sqr|]. destruct (decide _); [by apply Sums_sqr|apply Sums_id].
  - eapply Sums_eq; [|by apply Sums_array]. intros s. destruct (for_loop _ _ _ s); done.
  - apply Sums_id.
  - apply Sums_id.
Qed.
Lemma Sums_cl f : cl_plain f -> Sums (sum_cl h f) (cl_visit f).
Proof.
  intros Hb. unfold cl_plain in Hb. unfold cl_visit, sum_cl. destruct (cv_conv (c_cfg f)); [|apply Sums_id].
  destruct (cv_mode (c_cfg f)); dm; try done.
  - apply Sums_seq; [|apply Sums_loop; intros b Hb'; apply Sums_bn_body; lia].
    apply Sums_loop. intros k _. apply Sums_seq; [by apply Sums_array|by apply Sums_sqr].
  - eapply Sums_eq; [|by apply Sums_array]. intros s. destruct (for_loop _ _ _ s); done.
  - apply Sums_id.
  - apply Sums_id.
Qed.
Definition model_visit (m : model) : list slot := concat (map fcl_visit (fcls m)) ++ concat (map cl_visit (cls m)) ++ concat (map (fun cs => concat (map cl_visit cs)) (rls m)).
Lemma Sums_add_m m : plain m -> Sums (add_m h m) (model_visit m).
Proof.
  intros (Hf & Hc & Hr). rewrite list.Forall_forall in Hf. rewrite list.Forall_forall in Hc. rewrite list.Forall_forall in Hr. unfold add_m, model_visit. apply Sums_seq; [|apply Sums_seq].
  - apply Sums_plus. apply Sums_upto. intros f H. by apply Sums_fcl, Hf.
  - apply Sums_plus. apply Sums_upto. intros f H. by apply Sums_cl, Hc.
  - apply Sums_plus. apply Sums_upto. intros cs H. apply Sums_plus. apply Sums_upto. intros f Hin. apply Sums_cl. specialize (Hr _ H). rewrite list.Forall_forall in Hr. by apply Hr.
Qed.
Lemma Sums_m m : plain m -> Sums (plus (sum_m h m)) (model_visit m).
Proof. intros H. apply (Sums_plus _ _ (add_m h m)). by apply Sums_add_m. Qed.
Lemma Sums_l2 ls : Sums (plus (sum_l2 h ls)) (concat (map l2_slots ls)).
Proof. apply Sums_plus, Sums_upto. intros s _. unfold l2_slots. destruct (s_train s); [by apply Sums_sqr|apply Sums_id]. Qed.
Lemma Sums_rd {A} (l : list A) i body L d : i < length l -> Sums (body (nth i l d)) (L (nth i l d)) -> Sums (fun s => x ← rd l i; body x s) (L (nth i l d)).
Proof. intros Hi H. eapply Sums_eq; [|exact H]. intros s. unfold rd. destruct (lookup_lt_is_Some_2 l i Hi) as [x Hx]. rewrite Hx. cbn. f_equal. by erewrite nth_lookup_Some. Qed.
End sums.

Section scales.
Context (k : R).
Notation Scales := (Scales sz k).
Lemma Scales_both a b n : Scales (for_loop n 0 (fun j s => s ← mul k a (Gamma b) j s; mul k a (Beta b) j s)) (both_visit a b n).
Proof. apply Scales_loop. intros. apply Scales_seq; by apply Scales_mul. Qed.
Lemma Scales_bn_body a bns b : b < length bns -> Scales (fun s => x ← rd bns b;
    if bnl_train x then for_loop (bnl_dim x) 0 (fun j s => s ← mul k a (Gamma b) j s; mul k a (Beta b) j s) s else Some s) (bn_visit a bns b).
Proof.
  intros Hb. destruct (lookup_lt_is_Some_2 bns b Hb) as [x Hx]. unfold bn_visit. rewrite Hx.
  eapply Scales_eq; [intros s; unfold rd; rewrite Hx; cbn [mbind option_bind]; reflexivity|]. destruct (bnl_train x); [apply Scales_both|apply Scales_id].
Qed.
Lemma Scales_fcl f : fcl_plain f -> Scales (clip_fcl k f) (fcl_visit f).
Proof.
  intros (Hn & Hm & Hb & Hi). unfold fcl_visit, clip_fcl. rewrite Hm. destruct (fl_only_dropout (f_cfg f)); [apply Scales_id|].
  destruct (fl_mode (f_cfg f)); dm; try done.
  - eapply Scales_eq; [|apply (Scales_loop _ _ (fl_out (f_cfg f) * fl_in (f_cfg f)) 0 (fun j s => s ← mul k (f_at f) Weights j s; if decide (j < fl_out (f_cfg f)) then mul k (f_at f) Biases j s else Some s))].
    + intros s. destruct (for_loop _ _ _ s); done.
    + intros j _. apply Scales_seq; [by apply Scales_mul|]. destruct (decide _); [by apply Scales_mul|apply Scales_id].
  - by apply Scales_array.
  all: apply Scales_id.
Qed.
Lemma Scales_cl f : cl_plain f -> Scales (clip_cl k f) (cl_visit f).
Proof.
  intros Hb. unfold cl_plain in Hb. unfold cl_visit, clip_cl. destruct (cv_conv (c_cfg f)); [|apply Scales_id].
  destruct (cv_mode (c_cfg f)); dm; try done.
  - apply Scales_seq; [|apply Scales_loop; intros b Hb'; apply Scales_bn_body; lia].
    apply Scales_loop. intros j _. apply Scales_seq; [by apply Scales_array|by apply Scales_mul].
  - eapply Scales_eq; [|by apply Scales_array]. intros s. destruct (for_loop _ _ _ s); done.
  all: apply Scales_id.
Qed.
Lemma Scales_m m : plain m -> Scales (clip_m k m) (model_visit m).
Proof.
  intros (Hf & Hc & Hr). rewrite list.Forall_forall in Hf. rewrite list.Forall_forall in Hc. rewrite list.Forall_forall in Hr. unfold clip_m, clip_m', model_visit. apply Scales_seq; [|apply Scales_seq].
  - apply Scales_upto. intros f H. by apply Scales_fcl, Hf.
  - apply Scales_upto. intros f H. by apply Scales_cl, Hc.
  - apply Scales_upto. intros cs H. apply Scales_upto. intros f Hin. apply Scales_cl. specialize (Hr _ H). rewrite list.Forall_forall in Hr. by apply Hr.
Qed.
Lemma Scales_l2 ls : Scales (clip_l2 k ls) (concat (map l2_slots ls)).
Proof. apply Scales_upto. intros s _. unfold l2_slots. destruct (s_train s); [by apply Scales_mul|apply Scales_id]. Qed.
End scales.
End sz.

(** * No gradient is listed twice when the layers are distinct *)
Lemma NoDup_arr a nm n : NoDup (arr a nm n).
Proof. unfold arr. apply NoDup_fmap_2; [|apply NoDup_seq]. intros i j H. by inversion H. Qed.
Lemma slots_in a ns t sz p : p ∈ slots a ns t sz -> p.1.1 = a /\ p.1.2 ∈ ns.
Proof.
  unfold slots. intros Hp. apply elem_of_list_In, in_concat in Hp as (l & Hl & Hp). apply in_map_iff in Hl as (nm & <- & Hn).
  destruct (t nm); [|done]. unfold arr in Hp. apply in_map_iff in Hp as (i & <- & _). cbn. split; [done|by apply elem_of_list_In].
Qed.
Lemma NoDup_slots a ns t sz : NoDup ns -> NoDup (slots a ns t sz).
Proof.
  intros H. induction H as [|nm ns Hn H IH]; [constructor|]. change (nm :: ns) with ([nm] ++ ns). rewrite slots_app. apply list.NoDup_app. split_and!; [|..|done].
  - unfold slots. cbn. rewrite app_nil_r. destruct (t nm); [apply NoDup_arr|constructor].
  - intros p Hp Hq. apply slots_in in Hp as [_ Hp], Hq as [_ Hq]. apply elem_of_list_singleton in Hp. congruence.
Qed.
Lemma NoDup_groups n : NoDup (groups n).
Proof.
  unfold groups. enough (H : forall l : list nat, NoDup l -> NoDup (concat (map (fun b => [Gamma b; Beta b]) l)) /\ forall b, Gamma b ∈ concat (map (fun b => [Gamma b; Beta b]) l) \/ Beta b ∈ concat (map (fun b => [Gamma b; Beta b]) l) -> b ∈ l) by (apply H, NoDup_seq).
  induction 1 as [|b l Hb H [IH1 IH2]]; cbn.
  - split; [constructor|]. intros b [H|H]; by apply not_elem_of_nil in H.
  - split.
    + constructor; [|constructor; [|done]].
      * rewrite not_elem_of_cons. split; [done|]. intros ?. apply Hb, IH2. by left.
      * intros ?. apply Hb, IH2. by right.
    + intros b' Hin. rewrite !elem_of_cons in Hin. rewrite elem_of_cons. destruct (decide (b' = b)) as [->|?]; [by left|]. right. apply IH2. destruct Hin as [[H1|[H1|H1]]|[H1|[H1|H1]]]; try congruence; tauto.
Qed.
Lemma groups_in nm n : nm ∈ groups n -> exists b, nm = Gamma b \/ nm = Beta b.
Proof.
  unfold groups. intros Hn. apply elem_of_list_In, in_concat in Hn as (l & Hl & Hn). apply in_map_iff in Hl as (b & <- & _). exists b. cbn in Hn. destruct Hn as [<-|[<-|[]]]; tauto.
Qed.
Lemma NoDup_fcl_slots f : NoDup (fcl_slots f).
Proof. apply NoDup_slots. apply (bool_decide_unpack _). vm_compute. done. Qed.
Lemma NoDup_cl_names K n : NoDup (map Kernel (seq 0 K) ++ [Biases; Scores] ++ groups n).
Proof.
  apply list.NoDup_app. split_and!.
  - apply NoDup_fmap_2; [intros i j H; by inversion H|apply NoDup_seq].
  - intros nm Hk. apply elem_of_list_In, in_map_iff in Hk as (k & <- & _). cbn. rewrite !not_elem_of_cons. split; [done|]. split; [done|]. intros H. apply groups_in in H as (b & [?|?]); done.
  - apply list.NoDup_app. split_and!; [|..|apply NoDup_groups].
    + apply (bool_decide_unpack _). vm_compute. done.
    + intros nm Hk H. apply groups_in in H as (b & H). rewrite !elem_of_cons in Hk. destruct Hk as [->|[->|Hk]]; [destruct H; done..|]. by apply not_elem_of_nil in Hk.
Qed.
Lemma NoDup_cl_slots f : NoDup (cl_slots f).
Proof. apply NoDup_slots, NoDup_cl_names. Qed.
Lemma NoDup_l2_slots s : NoDup (l2_slots s).
Proof. unfold l2_slots. destruct (s_train s); [apply NoDup_singleton|constructor]. Qed.

Definition block : Type := nat * list slot.
Definition block_ok (b : block) : Prop := NoDup b.2 /\ forall p, p ∈ b.2 -> p.1.1 = b.1.
Lemma NoDup_blocks (bs : list block) : NoDup (map fst bs) -> Forall block_ok bs -> NoDup (concat (map snd bs)).
Proof.
  induction bs as [|b bs IH]; cbn; intros Hn Hb; [constructor|]. apply list.NoDup_cons in Hn as [Hn1 Hn]. apply list.Forall_cons in Hb as [[Hb1 Hb2] Hb].
  apply list.NoDup_app. split_and!; [done| |by apply IH]. intros p Hp Hq. apply Hn1. rewrite <- (Hb2 _ Hp).
  apply elem_of_list_In, in_concat in Hq as (l & Hl & Hq). apply in_map_iff in Hl as (b' & <- & Hb'). apply elem_of_list_In in Hb', Hq.
  rewrite list.Forall_forall in Hb. destruct (Hb _ Hb') as [_ Hb3]. rewrite (Hb3 _ Hq). apply elem_of_list_fmap. by exists b'.
Qed.
Definition model_blocks (m : model) : list block :=
  map (fun f => (f_at f, fcl_slots f)) (fcls m) ++ map (fun f => (c_at f, cl_slots f)) (cls m) ++ map (fun f => (c_at f, cl_slots f)) (concat (rls m)).
Definition all_blocks (ms : list model) (ss : list snode) : list block := concat (map model_blocks ms) ++ map (fun s => (s_at s, l2_slots s)) ss.
Lemma all_blocks_addrs ms ss : map fst (all_blocks ms ss) = all_addrs ms ss.
Proof.
  unfold all_blocks, all_addrs. rewrite map_app, map_map, concat_map, map_map. cbn [fst]. do 2 f_equal. apply map_ext. intros m.
  unfold model_blocks, addrs. rewrite !map_app, !map_map. done.
Qed.
Lemma concat_concat_map {A} (l : list (list (list A))) : concat (concat l) = concat (map (@concat A) l).
Proof. induction l as [|x l IH]; cbn; [done|]. by rewrite concat_app, IH. Qed.
Lemma all_blocks_slots ms ss : concat (map snd (all_blocks ms ss)) = all_slots ms ss.
Proof.
  unfold all_blocks, all_slots. rewrite map_app, concat_app, map_map, concat_map, concat_concat_map, !map_map. cbn [snd]. do 2 f_equal. apply map_ext. intros m.
  unfold model_blocks, model_slots. rewrite !map_app, !concat_app, !map_map. done.
Qed.
Lemma all_blocks_ok ms ss : Forall block_ok (all_blocks ms ss).
Proof.
  apply list.Forall_app. split.
  - apply Forall_concat, Forall_fmap, Forall_true. intros m. unfold compose, model_blocks. rewrite !list.Forall_app, !Forall_fmap. split_and!; apply Forall_true; intros f.
    + split; [apply NoDup_fcl_slots|]. intros p Hp. by apply slots_in in Hp as [? _].
    + split; [apply NoDup_cl_slots|]. intros p Hp. by apply slots_in in Hp as [? _].
    + split; [apply NoDup_cl_slots|]. intros p Hp. by apply slots_in in Hp as [? _].
  - apply Forall_fmap, Forall_true. intros s. split; [apply NoDup_l2_slots|]. cbn. unfold l2_slots. intros p Hp. destruct (s_train s); [|by apply not_elem_of_nil in Hp].
    apply elem_of_list_singleton in Hp as ->. done.
Qed.
Lemma NoDup_all_slots ms ss : NoDup (all_addrs ms ss) -> NoDup (all_slots ms ss).
Proof. rewrite <- all_blocks_addrs, <- all_blocks_slots. intros H. apply NoDup_blocks; [done|apply all_blocks_ok]. Qed.

(** * Orders of visit *)
Lemma model_visit_slots m : plain m -> model_visit m ≡ₚ model_slots m.
Proof.
  intros (Hf & Hc & Hr). rewrite list.Forall_forall in Hf. rewrite list.Forall_forall in Hc. rewrite list.Forall_forall in Hr. unfold model_visit, model_slots.
  apply Permutation_app; [|apply Permutation_app].
  - apply concat_map_perm. intros f H. by apply fcl_visit_slots, Hf.
  - apply concat_map_perm. intros f H. by apply cl_visit_slots, Hc.
  - rewrite concat_map, concat_concat_map, map_map. apply concat_map_perm. intros cs H. apply concat_map_perm. intros f Hin. apply cl_visit_slots.
    specialize (Hr _ H). rewrite list.Forall_forall in Hr. by apply Hr.
Qed.
Lemma models_visit_slots ms : Forall plain ms -> concat (map model_visit ms) ≡ₚ concat (map model_slots ms).
Proof. intros H. rewrite list.Forall_forall in H. apply concat_map_perm. intros m Hm. by apply model_visit_slots, H. Qed.
Definition nomodel : model := Model [] [] [].
Definition heads_visit (q k v : list model) (n : nat) : list slot :=
  concat (map (fun i => model_visit (nth i q nomodel) ++ model_visit (nth i k nomodel) ++ model_visit (nth i v nomodel)) (seq 0 n)).
Lemma map_nth_seq {A B} (f : A -> B) l d : map (fun i => f (nth i l d)) (seq 0 (length l)) = map f l.
Proof.
  induction l as [|x l IH]; [done|]. cbn [length seq map nth]. f_equal. rewrite <- seq_shift, map_map. exact IH.
Qed.
Lemma heads_visit_models q k v n : length q = n -> length k = n -> length v = n ->
  heads_visit q k v n ≡ₚ concat (map model_visit (q ++ k ++ v)).
Proof.
  intros Hq Hk Hv. unfold heads_visit. rewrite !concat_map_app, !map_app, !concat_app.
  rewrite <- Hq at 1. rewrite <- Hk at 1. rewrite <- Hv at 1. rewrite !(map_nth_seq model_visit). done.
Qed.
Definition encoder_visit (t : encoder) : list slot :=
  model_visit (e_m t) ++ model_visit (e_lin t) ++ heads_visit (e_q t) (e_k t) (e_v t) (e_head t) ++ concat (map l2_slots (e_l2 t)).
Definition encoder_visit2 (t : encoder) : list slot :=
  heads_visit (e_q t) (e_k t) (e_v t) (e_head t) ++ model_visit (e_m t) ++ model_visit (e_lin t) ++ concat (map l2_slots (e_l2 t)).
Definition encoder_visit3 (t : encoder) : list slot :=
  model_visit (e_m t) ++ model_visit (e_lin t) ++ concat (map l2_slots (e_l2 t)) ++ heads_visit (e_q t) (e_k t) (e_v t) (e_head t).
Lemma encoder_visit2_slots t : encoder_ok t -> encoder_visit2 t ≡ₚ encoder_slots t.
Proof.
  intros (Hq & Hk & Hv & Hp). unfold encoder_visit2, encoder_slots, all_slots. rewrite <- models_visit_slots by done. rewrite heads_visit_models by done.
  unfold encoder_models. rewrite !map_app, !concat_app. cbn [map concat]. rewrite app_nil_r, <- !app_assoc. done.
Qed.
Lemma encoder_visit_slots t : encoder_ok t -> encoder_visit t ≡ₚ encoder_slots t.
Proof. intros H. rewrite <- encoder_visit2_slots by done. unfold encoder_visit, encoder_visit2. solve_Permutation. Qed.
Lemma encoder_visit3_slots t : encoder_ok t -> encoder_visit3 t ≡ₚ encoder_slots t.
Proof. intros H. rewrite <- encoder_visit2_slots by done. unfold encoder_visit3, encoder_visit2. solve_Permutation. Qed.
Definition decoder_visit (t : decoder) : list slot :=
  model_visit (e_m (d_e t)) ++ model_visit (e_lin (d_e t)) ++ model_visit (d_lin t) ++ heads_visit (d_q t) (d_k t) (d_v t) (d_head t) ++
  heads_visit (e_q (d_e t)) (e_k (d_e t)) (e_v (d_e t)) (e_head (d_e t)) ++ concat (map l2_slots (e_l2 (d_e t))) ++ concat (map l2_slots (d_l2 t)).
Definition decoder_visit2 (t : decoder) : list slot :=
  heads_visit (d_q t) (d_k t) (d_v t) (d_head t) ++ heads_visit (e_q (d_e t)) (e_k (d_e t)) (e_v (d_e t)) (e_head (d_e t)) ++
  model_visit (e_m (d_e t)) ++ model_visit (e_lin (d_e t)) ++ model_visit (d_lin t) ++ concat (map l2_slots (e_l2 (d_e t))) ++ concat (map l2_slots (d_l2 t)).
Lemma decoder_visit2_slots t : decoder_ok t -> decoder_visit2 t ≡ₚ decoder_slots t.
Proof.
  intros ((Hq & Hk & Hv & Hp) & Hq' & Hk' & Hv' & Hp'). unfold decoder_visit2, decoder_slots, all_slots. rewrite <- models_visit_slots by done. rewrite !heads_visit_models by done.
  unfold decoder_models, encoder_models. rewrite !map_app, !concat_app. cbn [map concat]. rewrite !app_nil_r, <- !app_assoc. solve_Permutation.
Qed.
Lemma decoder_visit_slots t : decoder_ok t -> decoder_visit t ≡ₚ decoder_slots t.
Proof. intros H. rewrite <- decoder_visit2_slots by done. unfold decoder_visit, decoder_visit2. solve_Permutation. Qed.

Section sz2.
Context (sz : nat -> name -> nat).
Lemma rd_nth {A B} (l : list A) i d (f : A -> option B) : i < length l -> (x ← rd l i; f x) = f (nth i l d).
Proof. intros Hi. unfold rd. destruct (lookup_lt_is_Some_2 l i Hi) as [x Hx]. rewrite Hx. cbn. f_equal. by erewrite nth_lookup_Some. Qed.
Lemma plain_nth l i : i < length l -> Forall plain l -> plain (nth i l nomodel).
Proof. intros Hi H. rewrite list.Forall_forall in H. apply H. apply elem_of_list_In, nth_In, Hi. Qed.
Lemma Sums_heads h q k v n : shaped sz h -> length q = n -> length k = n -> length v = n -> Forall plain q -> Forall plain k -> Forall plain v ->
  Sums sz h (sum_heads h n q k v) (heads_visit q k v n).
Proof.
  intros Hh Hq Hk Hv Pq Pk Pv. apply Sums_loop. intros i Hi.
  eapply Sums_eq; [intros s; rewrite (rd_nth q i nomodel) by lia; rewrite (rd_nth k i nomodel) by lia; rewrite (rd_nth v i nomodel) by lia; reflexivity|].
  apply Sums_seq; [|apply Sums_seq]; apply Sums_m; try done; apply plain_nth; try done; lia.
Qed.
Lemma Scales_heads d q k v n : length q = n -> length k = n -> length v = n -> Forall plain q -> Forall plain k -> Forall plain v ->
  Scales sz d (clip_heads d n q k v) (heads_visit q k v n).
Proof.
  intros Hq Hk Hv Pq Pk Pv. apply Scales_loop. intros i Hi.
  eapply Scales_eq; [intros s; rewrite (rd_nth q i nomodel) by lia; rewrite (rd_nth k i nomodel) by lia; rewrite (rd_nth v i nomodel) by lia; reflexivity|].
  apply Scales_seq; [|apply Scales_seq]; apply Scales_m; apply plain_nth; try done; lia.
Qed.
Lemma encoder_ok_plain t : encoder_ok t -> Forall plain (e_q t) /\ Forall plain (e_k t) /\ Forall plain (e_v t) /\ plain (e_m t) /\ plain (e_lin t).
Proof. intros (_ & _ & _ & H). unfold encoder_models in H. rewrite !list.Forall_app, !list.Forall_cons in H. tauto. Qed.
Lemma decoder_ok_plain t : decoder_ok t -> Forall plain (d_q t) /\ Forall plain (d_k t) /\ Forall plain (d_v t) /\ plain (d_lin t).
Proof. intros (_ & _ & _ & _ & H). unfold decoder_models in H. rewrite !list.Forall_app, !list.Forall_cons in H. tauto. Qed.
Lemma Sums_encoder h t : shaped sz h -> encoder_ok t -> Sums sz h (sum_encoder h t) (encoder_visit t).
Proof.
  intros Hh H. destruct (encoder_ok_plain _ H) as (Pq & Pk & Pv & Pm & Pl). destruct H as (Hq & Hk & Hv & _).
  apply Sums_seq; [by apply Sums_m|]. apply Sums_seq; [by apply Sums_m|]. apply Sums_seq; [by apply Sums_heads|by apply Sums_l2].
Qed.
Lemma Sums_encoder3 h t : shaped sz h -> encoder_ok t -> Sums sz h (sum_encoder_in_transf h t) (encoder_visit3 t).
Proof.
  intros Hh H. destruct (encoder_ok_plain _ H) as (Pq & Pk & Pv & Pm & Pl). destruct H as (Hq & Hk & Hv & _).
  apply Sums_seq; [by apply Sums_m|]. apply Sums_seq; [by apply Sums_m|]. apply Sums_seq; [by apply Sums_l2|by apply Sums_heads].
Qed.
Lemma Scales_encoder k t : encoder_ok t -> Scales sz k (clip_encoder k t) (encoder_visit2 t).
Proof.
  intros H. destruct (encoder_ok_plain _ H) as (Pq & Pk & Pv & Pm & Pl). destruct H as (Hq & Hk & Hv & _).
  apply Scales_seq; [by apply Scales_heads|]. apply Scales_seq; [by apply Scales_m|]. apply Scales_seq; [by apply Scales_m|by apply Scales_l2].
Qed.
Lemma Sums_decoder h t : shaped sz h -> decoder_ok t -> Sums sz h (sum_decoder h t) (decoder_visit t).
Proof.
  intros Hh H. destruct (decoder_ok_plain _ H) as (Pq' & Pk' & Pv' & Pl'). destruct H as (H & Hq' & Hk' & Hv' & _). destruct (encoder_ok_plain _ H) as (Pq & Pk & Pv & Pm & Pl). destruct H as (Hq & Hk & Hv & _).
  apply Sums_seq; [by apply Sums_m|]. apply Sums_seq; [by apply Sums_m|]. apply Sums_seq; [by apply Sums_m|].
  apply Sums_seq; [by apply Sums_heads|]. apply Sums_seq; [by apply Sums_heads|]. apply Sums_seq; by apply Sums_l2.
Qed.
Lemma Scales_decoder k t : decoder_ok t -> Scales sz k (clip_decoder k t) (decoder_visit2 t).
Proof.
  intros H. destruct (decoder_ok_plain _ H) as (Pq' & Pk' & Pv' & Pl'). destruct H as (H & Hq' & Hk' & Hv' & _). destruct (encoder_ok_plain _ H) as (Pq & Pk & Pv & Pm & Pl). destruct H as (Hq & Hk & Hv & _).
  apply Scales_seq; [by apply Scales_heads|]. apply Scales_seq; [by apply Scales_heads|].
  apply Scales_seq; [by apply Scales_m|]. apply Scales_seq; [by apply Scales_m|]. apply Scales_seq; [by apply Scales_m|]. apply Scales_seq; by apply Scales_l2.
Qed.
End sz2.

(** * The test and the scaling *)
Definition sizes (h : heap) : nat -> name -> nat := fun a nm => length (h a nm).
Lemma clip_run thr S h f clip L1 L2 : NoDup S -> allocated h S -> (0 < thr)%R -> Sums (sizes h) h f L1 -> (forall k, Scales (sizes h) k (clip k) L2) ->
  L1 ≡ₚ S -> L2 ≡ₚ S -> exists h', (s ← f 0%R; clip_if thr s clip h) = Some h' /\ clipped thr S h h'.
Proof.
  intros Hn Ha Ht Hf Hc H1 H2. rewrite (Hf (fits_perm _ _ _ (symmetry H1) Ha)). cbn [mbind option_bind]. rewrite Rplus_0_l, (sumsq_perm _ _ _ H1).
  unfold clip_if, clipped. pose proof (sumsq_nonneg h S) as H0. fold (gnorm h S).
  destruct (decide (0 <= sumsq h S /\ thr <= gnorm h S)%R) as [[_ Hg]|Hg].
  - rewrite (Hc _ (fits_perm _ _ _ (symmetry H2) Ha)) by done. eexists. split; [reflexivity|].
    rewrite decide_False by lra. assert (Hs := scale_all_scaled (thr / gnorm h S) L2 S h Hn H2). split; [done|].
    unfold gnorm at 1. rewrite (sumsq_scaled _ _ _ _ Hs).
    replace (thr / gnorm h S * (thr / gnorm h S) * sumsq h S)%R with (thr * thr)%R.
    + rewrite sqrt_square by lra. rewrite Rmin_right; lra.
    + assert (E : (gnorm h S * gnorm h S = sumsq h S)%R) by (apply sqrt_sqrt; done). rewrite <- E. field. lra.
  - exists h. split; [done|]. rewrite decide_True by (apply Rnot_le_lt; tauto). split.
    + split; [done|]. intros p. destruct (decide _); lra.
    + rewrite Rmin_left; [done|]. apply Rlt_le, Rnot_le_lt. tauto.
Qed.
