From Coq Require Import Sorted.
From Verif Require Import Save_Model Save_Spec Save_Proofs Save2_Model Save2_Spec BaseLemmas.
Open Scope Z_scope.

(** * Recurrent layers *)
Record gate_ok (c : lcfg) (g : gate) : Prop := {
  go_w : Z.of_nat (length (g_w g)) = l_out c * l_in c; go_u : Z.of_nat (length (g_u g)) = l_out c * l_out c; go_b : Z.of_nat (length (g_b g)) = l_out c }.
Record egate_ok (c : lcfg) (e : egate) : Prop := {
  eo_ws : Z.of_nat (length (e_ws e)) = l_out c * l_in c; eo_wi : Z.of_nat (length (e_wi e)) = l_out c * l_in c;
  eo_ui : Z.of_nat (length (e_ui e)) = l_out c * l_out c; eo_us : Z.of_nat (length (e_us e)) = l_out c * l_out c }.
Record lstm_ok (c : lcfg) (l : lstm) : Prop := {
  lo_cfg : l_cfg l = c;
  lo_g : Forall (gate_ok c) (l_gates l) /\ length (l_gates l) = 4%nat;
  lo_e : if lstm_edge c then exists es, l_edge l = Some <$> es /\ Forall (egate_ok c) es /\ length es = 4%nat else l_edge l = [];
  lo_b : if bool_decide (l_norm c = GROUP_NORMALIZATION) then
           exists b m, l_bns l = Some b /\ quot (l_window c) (l_cells c) = Some m /\ Z.to_nat m = length b /\ Forall reach_bn b
         else l_bns l = None }.
Definition norm_thr (c : lcfg) : Prop := (l_drop1 c = NO_DROPOUT -> l_thr1 c = f0) /\ (l_drop2 c = NO_DROPOUT -> l_thr2 c = f0).

Lemma Forall2_replicate_r {A} (R : A -> A -> Prop) (P : A -> Prop) l n y : (forall x, R x y -> P x) -> Forall2 R l (replicate n y) -> Forall P l /\ length l = n.
Proof.
  intros HP H. split.
  - remember (replicate n y) as r eqn:E. revert n E. induction H as [|a b l r Hab _ IH]; intros n E; [constructor|].
    destruct n; [done|]. injection E as -> E. constructor; [by apply HP|by apply (IH n)].
  - by rewrite (Forall2_length _ _ _ H), replicate_length.
Qed.
Lemma mapM_const {A} (o : option A) n l : mapM (fun _ : nat => o) (seq 0 n) = Some l -> length l = n /\ Forall (fun x => o = Some x) l.
Proof.
  intros H%mapM_Some. split; [by rewrite <- (Forall2_length _ _ _ H), seq_length|]. apply list.Forall_forall. intros x (i & Hi)%elem_of_list_lookup.
  destruct (Forall2_lookup_r _ _ _ _ _ H Hi) as (j & _ & Hx). done.
Qed.
Lemma bn_like_trans a b c : bn_like a b -> bn_like b c -> bn_like a c.
Proof. unfold bn_like. intros (-> & -> & -> & ->) (-> & -> & -> & ->). done. Qed.
Lemma reach_bn_like a b : bn_like a b -> reach_bn b -> reach_bn a.
Proof. intros H (x & y & z & H1 & H2). exists x, y, z. split; [done|]. by eapply bn_like_trans. Qed.
Lemma reach_bns_like l l' : Forall2 bn_like l l' -> Forall reach_bn l' -> Forall reach_bn l.
Proof. intros H. induction H as [|x y l l' H _ IH]; [done|]. intros [H1 H2]%list.Forall_cons. constructor; [by eapply reach_bn_like|by apply IH]. Qed.
Lemma egate_fresh c w u : 0 < l_out c * l_in c -> 0 < l_out c * l_out c -> w = l_out c * l_in c -> u = l_out c * l_out c ->
  egate_ok c (Egate (fresh_arr w f0) (Z.of_nat <$> seq 0 (Z.to_nat w)) (Z.of_nat <$> seq 0 (Z.to_nat u)) (fresh_arr u f0)).
Proof. intros ? ? -> ->. constructor; cbn; rewrite ?fresh_arr_length, ?fmap_length, ?seq_length; lia. Qed.
Lemma gate_fresh c rnd w u : 0 < l_out c -> 0 < l_out c * l_in c -> 0 < l_out c * l_out c -> w = l_out c * l_in c -> u = l_out c * l_out c ->
  gate_ok c (Gate (fresh_rnd w rnd) (fresh_rnd u rnd) (fresh_arr (l_out c) f0)).
Proof. intros ? ? ? -> ->. constructor; cbn; rewrite ?fresh_arr_length, ?fresh_rnd_length; lia. Qed.

(** what the constructor makes, from arguments it accepts, has the right shape, whatever is then put in the arrays; and it accepts the
    configuration of what it made *)
Lemma recurrent_lstm_ok rnd a l l0 : recurrent_lstm rnd a = Some l0 -> lstm_like l l0 -> (l_ff (l_cfg l) = EDGE_POPUP -> l_train (l_cfg l) = EDGE_POPUP) ->
  0 < l_in (l_cfg l) /\ 0 < l_out (l_cfg l) /\ lstm_ok (l_cfg l) l.
Proof.
  intros H (Hc & Hg & He & Hb) Hsav. unfold recurrent_lstm in H.
  apply bind_Some in H as ([] & H1%reject_inv%bool_decide_eq_false & H). apply bind_Some in H as ([] & H2%reject_inv%bool_decide_eq_false & H).
  apply bind_Some in H as ([] & H3 & H). apply bind_Some in H as ([] & H4%reject_inv%bool_decide_eq_false & H).
  apply bind_Some in H as (bns & H5 & H). revert H. cbv zeta. set (c := Lcfg _ _ _ _ _ _ _ _ _ _ _ _ _). intros H. apply (inj Some) in H. subst l0.
  cbn [l_cfg l_gates l_edge l_bns] in Hc, Hg, He, Hb. rewrite Hc in *.
  assert (Hi : 0 < l_in c) by (cbn; lia). assert (Ho : 0 < l_out c) by (cbn; lia).
  assert (Hio : 0 < l_out c * l_in c) by lia. assert (Hoo : 0 < l_out c * l_out c) by lia.
  split; [done|]. split; [done|]. constructor; [done| | |].
  - eapply Forall2_replicate_r; [|exact Hg]. intros x (L1 & L2 & L3).
    pose proof (gate_fresh c rnd (l_out c * l_in c) (l_out c * l_out c) Ho Hio Hoo eq_refl eq_refl) as [G1 G2 G3].
    constructor; [etransitivity; [apply f_equal, L1|exact G1]|etransitivity; [apply f_equal, L2|exact G2]|etransitivity; [apply f_equal, L3|exact G3]].
  - destruct (lstm_edge c) eqn:Ed.
    + assert (Ht : l_train c = EDGE_POPUP).
      { unfold lstm_edge in Ed. apply orb_true_iff in Ed as [Ed|Ed]; apply bool_decide_eq_true in Ed; [done|by apply Hsav]. }
      rewrite decide_True in He by done.
      apply (Forall2_replicate_r _ (fun x => exists e, x = Some e /\ egate_ok c e)) in He as [He Hl].
      * assert (Hx : exists es, l_edge l = Some <$> es /\ Forall (egate_ok c) es).
        { clear Hl. induction He as [|x xs (e & -> & He) _ (es & IH1 & IH2)]; [by exists []|]. exists (e :: es). rewrite IH1. split; [done|by constructor]. }
        destruct Hx as (es & E1 & E2). exists es. split; [done|]. split; [done|]. by rewrite E1, fmap_length in Hl.
      * intros x Hx. inversion Hx as [e e' HL E1 E2|]; subst. destruct HL as (L1 & L2 & L3 & L4). exists e. split; [done|].
        pose proof (egate_fresh c (l_out c * l_in c) (l_out c * l_out c) Hio Hoo eq_refl eq_refl) as [G1 G2 G3 G4].
        constructor; [etransitivity; [apply f_equal, L1|exact G1]|etransitivity; [apply f_equal, L2|exact G2]|
                      etransitivity; [apply f_equal, L3|exact G3]|etransitivity; [apply f_equal, L4|exact G4]].
    + by inversion He.
  - assert (En : l_norm c = l_norm a) by done. rewrite En. destruct (bool_decide (l_norm a = GROUP_NORMALIZATION)).
    + apply bind_Some in H5 as (m & Hq & H5). apply bind_Some in H5 as (bl & Hbl & [= <-]). apply mapM_const in Hbl as [Hl Hbl].
      inversion Hb as [b b' Hbb E1 E2|]; subst. exists b, m. split; [done|]. split; [done|]. split; [by rewrite (Forall2_length _ _ _ Hbb)|].
      eapply reach_bns_like; [exact Hbb|]. eapply list.Forall_impl; [exact Hbl|]. cbn. intros x Hx. exists (l_cells a), (l_out a), x. split; [done|]. by repeat split.
    + injection H5 as <-. by inversion Hb.
Qed.
Lemma recurrent_lstm_again rnd rnd' a l0 : recurrent_lstm rnd a = Some l0 -> exists l1, recurrent_lstm rnd' (l_cfg l0) = Some l1 /\ l_cfg l1 = l_cfg l0.
Proof.
  intros H. unfold recurrent_lstm in H.
  apply bind_Some in H as ([] & H1 & H). apply bind_Some in H as ([] & H2 & H).
  apply bind_Some in H as ([] & H3 & H). apply bind_Some in H as ([] & H4 & H).
  apply bind_Some in H as (bns & H5 & H). cbv zeta in H. injection H as <-. cbn [l_cfg].
  unfold recurrent_lstm. cbn [l_in l_out l_drop1 l_thr1 l_drop2 l_thr2 l_layer l_window l_res l_norm l_cells l_train l_ff].
  rewrite H1. cbn [mbind option_bind]. rewrite H2. cbn [mbind option_bind]. rewrite H3. cbn [mbind option_bind]. rewrite H4. cbn [mbind option_bind].
  rewrite H5. cbn [mbind option_bind]. cbv zeta. eexists. split; [reflexivity|]. cbn [l_cfg].
  f_equal; repeat case_decide; done.
Qed.
Definition gate_bytes (g : gate) : file := g_w g ++ g_u g ++ g_b g.
Definition egate_bytes (e : egate) : file := e_ws e ++ e_wi e ++ e_ui e ++ e_us e.
Definition lstm_header (l : lstm) : file :=
  let c := l_cfg l in [l_ff c; l_k l; l_train c; l_res c; l_norm c; l_cells c; l_in c; l_out c; l_layer c; l_drop1 c; l_drop2 c; l_window c; l_thr1 c; l_thr2 c].
Definition lstm_bytes (l : lstm) : file :=
  lstm_header l ++ concat (gate_bytes <$> l_gates l) ++ concat (egate_bytes <$> omap id (l_edge l)) ++ concat (bn_bytes <$> default [] (l_bns l)).
Lemma omap_Some {A} (l : list A) : omap id (Some <$> l) = l.
Proof. induction l as [|x l IH]; [done|]. cbn. by rewrite IH. Qed.
Lemma save_all_nat {A} n k (l : list A) save w : Z.to_nat n = k -> save_all n l save w = save_all (Z.of_nat k) l save w.
Proof. intros <-. unfold save_all. by rewrite Nat2Z.id. Qed.
Lemma load_all_nat {A} n k (load : file -> option (A * file)) w : Z.to_nat n = k -> load_all n load w = load_all (Z.of_nat k) load w.
Proof. intros <-. unfold load_all. by rewrite Nat2Z.id. Qed.
Lemma Forall2_fmap_same {A B} (P : A -> Prop) (R : A -> B -> Prop) (f : A -> B) l : Forall P l -> (forall x, P x -> R x (f x)) -> Forall2 R l (f <$> l).
Proof. intros H HR. induction H; constructor; auto. Qed.
Lemma Forall2_fmap_same_l {A B} (P : A -> Prop) (R : B -> A -> Prop) (f : A -> B) l : Forall P l -> (forall x, P x -> R (f x) x) -> Forall2 R (f <$> l) l.
Proof. intros H HR. induction H; constructor; auto. Qed.
Lemma save_lstm_ok l w : 0 < l_in (l_cfg l) -> 0 < l_out (l_cfg l) -> lstm_ok (l_cfg l) l -> save_lstm l w = Some (w ++ lstm_bytes l).
Proof.
  intros Hi Ho [_ [Hg Hg4] He Hb]. unfold save_lstm. set (c := l_cfg l) in *. cbv zeta.
  assert (Hio : 0 < l_out c * l_in c) by lia. assert (Hoo : 0 < l_out c * l_out c) by lia. assert (Hco : l_in c * l_out c = l_out c * l_in c) by lia.
  unfold fwrites at 1. cbn [mbind option_bind]. set (w1 := w ++ _).
  eapply (bind_ok _ _ (w1 ++ concat (gate_bytes <$> l_gates l))).
  { rewrite (save_all_nat _ (length (l_gates l))) by (rewrite Hg4; done). apply save_all_ok. eapply Forall2_fmap_same; [exact Hg|].
    intros g [G1 G2 G3] w'. rewrite fwrite_ok by done. cbn [mbind option_bind]. rewrite fwrite_ok by done. cbn [mbind option_bind]. rewrite fwrite_ok by done.
    unfold gate_bytes. by rewrite <- !app_assoc. }
  set (w2 := w1 ++ _). eapply (bind_ok _ _ (w2 ++ concat (egate_bytes <$> omap id (l_edge l)))).
  { destruct (lstm_edge c).
    - destruct He as (es & -> & He & He4). rewrite omap_Some. rewrite (save_all_nat _ (length (Some <$> es))) by (by rewrite fmap_length, He4). apply save_all_ok.
      clear He4. induction He as [|e es [E1 E2 E3 E4] _ IH]; cbn [fmap list_fmap]; constructor; [|done]. intros w'. cbn [mbind option_bind].
      rewrite Hco. rewrite fwrite_ok by done. cbn [mbind option_bind]. rewrite fwrite_ok by done. cbn [mbind option_bind].
      rewrite fwrite_ok by done. cbn [mbind option_bind]. rewrite fwrite_ok by done. unfold egate_bytes. by rewrite <- !app_assoc.
    - rewrite He. cbn. by rewrite app_nil_r. }
  set (w3 := w2 ++ _). transitivity (Some (w3 ++ concat (bn_bytes <$> default [] (l_bns l)))).
  - destruct (bool_decide (l_norm c = GROUP_NORMALIZATION)).
    + destruct Hb as (b & m & -> & -> & Hm & Hb). cbn [mbind option_bind default from_option id]. rewrite (save_all_nat _ (length b)) by done. by rewrite save_bns.
    + rewrite Hb. cbn. by rewrite app_nil_r.
  - unfold w3, w2, w1, lstm_bytes, lstm_header. fold c. by rewrite <- !app_assoc.
Qed.
(** a loop that replaces one after the other the entries of an array by those of another *)
Lemma replace_loop {A} (body : nat -> list A -> option (list A)) n (src dst : list A) : length src = n -> length dst = n ->
  (forall i x y l, src !! i = Some x -> dst !! i = Some y -> l !! i = Some y -> length l = n -> body i l = Some (<[i := x]> l)) ->
  for_loop n 0 body dst = Some src.
Proof.
  intros Hs Hd H.
  destruct (for_loop_inv (fun i l => l = take i src ++ drop i dst) body n 0 dst) as (l & -> & ->).
  - by rewrite drop_0.
  - intros i l Hi ->. destruct (lookup_lt_is_Some_2 src i ltac:(lia)) as [x Hx]. destruct (lookup_lt_is_Some_2 dst i ltac:(lia)) as [y Hy].
    assert (Ht : length (take i src) = i) by (rewrite take_length; lia).
    rewrite (H i x y); [|done|done| |rewrite app_length, drop_length; lia].
    + eexists. split; [done|]. rewrite (take_S_r _ _ _ Hx), (drop_S _ _ _ Hy). rewrite <- app_assoc. cbn.
      rewrite insert_app_r_alt by lia. by rewrite Ht, Nat.sub_diag.
    + rewrite (drop_S _ _ _ Hy). rewrite lookup_app_r by lia. by rewrite Ht, Nat.sub_diag.
  - cbn. rewrite take_ge, drop_ge, app_nil_r by lia. done.
Qed.
Lemma load_lstm_ok rnd l w : (exists g, recurrent_lstm rnd (l_cfg l) = Some g /\ lstm_ok (l_cfg l) g) -> 0 < l_in (l_cfg l) -> 0 < l_out (l_cfg l) ->
  lstm_ok (l_cfg l) l -> load_lstm rnd (lstm_bytes l ++ w) = Some (l, w).
Proof.
  intros (g & Hcon & [Hgc [Hgg Hgg4] Hge Hgb]) Hi Ho [_ [Hg Hg4] He Hb]. unfold load_lstm, lstm_bytes, lstm_header. rewrite <- !app_assoc. set (c := l_cfg l) in *.
  assert (Hio : 0 < l_out c * l_in c) by lia. assert (Hoo : 0 < l_out c * l_out c) by lia. assert (Hco : l_in c * l_out c = l_out c * l_in c) by lia.
  cbv zeta. cbn -[fread load_all lstm_edge recurrent_lstm copy_array quot for_loop].
  replace (Lcfg _ _ _ _ _ _ _ _ _ _ _ _ _) with c by (by destruct c).
  eapply (bind_ok _ _ (l_gates l, _)).
  { rewrite (load_all_nat _ (length (l_gates l))) by (rewrite Hg4; done). apply load_all_ok. eapply Forall2_fmap_same_l; [exact Hg|].
    intros x [G1 G2 G3] w'. unfold gate_bytes. rewrite <- !app_assoc. rewrite fread_ok by done. cbn [mbind option_bind]. rewrite fread_ok by done.
    cbn [mbind option_bind]. rewrite fread_ok by done. cbn. by destruct x. }
  cbv beta iota. eapply (bind_ok _ _ (omap id (l_edge l), _)).
  { destruct (lstm_edge c).
    - destruct He as (es & -> & He & He4). rewrite omap_Some. rewrite (load_all_nat _ (length es)) by (by rewrite He4). apply load_all_ok.
      eapply Forall2_fmap_same_l; [exact He|]. intros x [E1 E2 E3 E4] w'. unfold egate_bytes. rewrite <- !app_assoc. rewrite Hco.
      rewrite fread_ok by done. cbn [mbind option_bind]. rewrite fread_ok by done. cbn [mbind option_bind]. rewrite fread_ok by done. cbn [mbind option_bind].
      rewrite fread_ok by done. cbn. by destruct x.
    - rewrite He. done. }
  cbv beta iota. eapply (bind_ok _ _ (l_bns l, w)).
  { destruct (bool_decide (l_norm c = GROUP_NORMALIZATION)).
    - destruct Hb as (b & m & -> & -> & Hm & Hb). cbn [mbind option_bind default from_option id]. rewrite (load_all_nat _ (length b)) by done. by rewrite load_bns.
    - rewrite Hb. done. }
  cbv beta iota. rewrite Hcon. cbn [mbind option_bind].
  eapply (bind_ok _ _ (l_gates l)).
  { apply replace_loop; [done|done|]. intros i x y la Hx Hy Hla Hlen. unfold rd. rewrite Hx, Hla. cbn [mbind option_bind].
    rewrite list.Forall_lookup in Hg. rewrite list.Forall_lookup in Hgg. destruct (Hg _ _ Hx) as [G1 G2 G3], (Hgg _ _ Hy) as [G1' G2' G3'].
    rewrite copy_ok by lia. cbn [mbind option_bind]. rewrite copy_ok by lia. cbn [mbind option_bind]. rewrite copy_ok by lia. cbn [mbind option_bind].
    rewrite wr_Some by (apply lookup_lt_Some in Hla; done). by destruct x. }
  cbv beta. eapply (bind_ok _ _ (l_edge l)).
  { destruct (lstm_edge c).
    - destruct He as (es & -> & He & He4). destruct Hge as (es' & -> & He' & He4'). rewrite omap_Some.
      apply replace_loop; [by rewrite fmap_length|by rewrite fmap_length|].
      intros i x y la Hx Hy Hla Hlen. rewrite list_lookup_fmap in Hx, Hy. destruct (es !! i) as [x'|] eqn:Ex; [|done]. destruct (es' !! i) as [y'|] eqn:Ey; [|done].
      cbn in Hx, Hy. injection Hx as <-. injection Hy as <-. unfold rd. rewrite Ex, Hla. cbn [mbind option_bind].
      rewrite list.Forall_lookup in He. rewrite list.Forall_lookup in He'. destruct (He _ _ Ex) as [G1 G2 G3 G4], (He' _ _ Ey) as [G1' G2' G3' G4'].
      rewrite copy_ok by lia. cbn [mbind option_bind]. rewrite copy_ok by lia. cbn [mbind option_bind]. rewrite copy_ok by lia. cbn [mbind option_bind].
      rewrite copy_ok by lia. cbn [mbind option_bind]. rewrite wr_Some by (apply lookup_lt_Some in Hla; done). by destruct x'.
    - by rewrite Hge, He. }
  cbv beta. rewrite Hgc. destruct (bool_decide (l_norm c = GROUP_NORMALIZATION)); [by destruct l|]. rewrite Hgb, <- Hb. by destruct l.
Qed.
Lemma lstm_like_refl l : lstm_like l l.
Proof.
  repeat split.
  - induction (l_gates l); constructor; [by repeat split|done].
  - induction (l_edge l) as [|[e|] es IH]; constructor; [by repeat constructor|done|constructor|done].
  - destruct (l_bns l) as [b|]; constructor. induction b; constructor; [by repeat split|done].
Qed.
Lemma round_trip_lstm rnd l : reach_lstm l -> round_trip save_lstm (load_lstm rnd) l.
Proof.
  intros [(rnd0 & a & l0 & H & Hl) Hs]. destruct (recurrent_lstm_ok _ _ _ _ H Hl Hs) as (Hi & Ho & Hok).
  exists (lstm_bytes l). split; [intros; by apply save_lstm_ok|]. intros rest. apply load_lstm_ok; [|done|done|done].
  destruct (recurrent_lstm_again _ rnd _ _ H) as (g & Hg & Hgc). destruct Hl as (Hc & _). rewrite <- Hc in Hg, Hgc.
  exists g. split; [done|]. rewrite <- Hgc. apply (recurrent_lstm_ok _ _ g g Hg (lstm_like_refl g)). by rewrite Hgc.
Qed.

(** * Recurrent networks *)
Lemma lstm_like_trans f g h : lstm_like f g -> lstm_like g h -> lstm_like f h.
Proof.
  intros (A1 & A2 & A3 & A4) (B1 & B2 & B3 & B4). split; [congruence|]. split; [|split].
  - eapply Forall2_transitive; [|exact A2|exact B2]. unfold gate_like. intros ? ? ? (? & ? & ?) (? & ? & ?). repeat split; congruence.
  - eapply Forall2_transitive; [|exact A3|exact B3]. intros x y z Hx Hy. inversion Hx; subst; inversion Hy; subst; constructor.
    unfold egate_like in *. naive_solver congruence.
  - inversion A4 as [a b Hab E1 E2|E1 E2]; rewrite <- E2 in B4; inversion B4 as [? c Hbc E3 E4|]; subst; constructor.
    eapply Forall2_transitive; [apply bn_like_trans|exact Hab|exact Hbc].
Qed.
Lemma reach_lstm_like f g : lstm_like f g -> reach_lstm g -> reach_lstm f.
Proof.
  intros H [(r & c & h & H1 & H2) Hs]. split; [|by rewrite (proj1 H)]. exists r, c, h. split; [done|]. by eapply lstm_like_trans.
Qed.
Lemma reach_lstms_like l l' : Forall2 lstm_like l l' -> Forall reach_lstm l' -> Forall reach_lstm l.
Proof. intros H. induction H as [|x y l l' H _ IH]; [done|]. intros [H1 H2]%list.Forall_cons. constructor; [by eapply reach_lstm_like|by apply IH]. Qed.
Lemma recurrent_network_inv layers lstms window mode m : recurrent_network layers lstms window mode = Some m ->
  m = Rmodel layers window mode (rm_lstms m) /\ rm_lstms m ≡ₚ lstms /\ sorted_by lstm_layer (rm_lstms m)
  /\ bool_decide (layers <= 0 \/ lstms = []) = false /\ forallb (fun c => bool_decide (l_window c = window)) (l_cfg <$> rm_lstms m) = true
  /\ is_Some (sequential layers (l_layer <$> (l_cfg <$> rm_lstms m))) /\ chained (l_cfg <$> rm_lstms m) = true.
Proof.
  intros H. unfold recurrent_network in H. apply bind_Some in H as ([] & H1%reject_inv & H). apply bind_Some in H as ([] & H2%reject_inv%negb_false_iff & H).
  destruct (xsort_ok lstm_layer lstms) as (ls & Es & Ps & Ss). rewrite Es in H. cbn [mbind option_bind] in H.
  apply bind_Some in H as (pos & H3 & H). apply bind_Some in H as ([] & H4%reject_inv%negb_false_iff & [= <-]). cbn [rm_lstms].
  split; [done|]. split; [done|]. split; [done|]. split; [done|]. split; [|split; [by eexists|done]].
  apply forallb_forall. intros x Hx. rewrite forallb_forall in H2. apply H2. apply elem_of_list_In. apply elem_of_list_In in Hx. by rewrite <- Ps.
Qed.
Lemma lstm_like_cfg f g : lstm_like f g -> l_cfg f = l_cfg g.
Proof. by intros (H & _). Qed.
Lemma recurrent_network_again layers lstms window mode m m0 : recurrent_network layers lstms window mode = Some m0 -> rmodel_like m m0 ->
  recurrent_network (rm_layers m) (rm_lstms m) (rm_window m) (rm_mode m) = Some m.
Proof.
  intros H (E1 & E2 & E3 & Hl). destruct (recurrent_network_inv _ _ _ _ _ H) as (Em & Hp & Hs & Hn & Hw & [pos Hq] & Hch). rewrite Em in E1, E2, E3.
  cbn in E1, E2, E3. pose proof (fmap_like _ _ _ _ lstm_like_cfg Hl) as Fl. unfold recurrent_network. rewrite Fl, E1, E2, E3.
  eapply bind_ok.
  { unfold reject. rewrite bool_decide_eq_false_2; [reflexivity|]. apply bool_decide_eq_false in Hn. intros [Hx|Hx]; apply Hn; [by left|right].
    rewrite Hx in Hl. apply Forall2_nil_inv_l in Hl. rewrite Hl in Hp. by apply Permutation_nil_l in Hp. }
  rewrite Hw. cbn [negb reject mbind option_bind]. rewrite xsort_sorted.
  - cbn [mbind option_bind]. rewrite Fl, Hq. cbn [mbind option_bind]. rewrite Hch. cbn. rewrite <- E1, <- E2, <- E3. by destruct m.
  - eapply sorted_like; [|exact Hl|done]. intros x y Hxy. unfold lstm_layer. by rewrite (lstm_like_cfg _ _ Hxy).
Qed.
Lemma round_trip_rmodel rnd m : reach_rmodel m -> round_trip save_rmodel (load_rmodel_opened rnd) m.
Proof.
  intros (layers & lstms & window & mode & m0 & Hr & H & Hl). destruct (recurrent_network_inv _ _ _ _ _ H) as (_ & Hp & _).
  destruct (round_trip_list save_lstm (load_lstm rnd) (rm_lstms m) id) as (b & S & L).
  { assert (Forall reach_lstm (rm_lstms m)) as HR by (eapply reach_lstms_like; [apply Hl|by rewrite Hp]).
    eapply list.Forall_impl; [exact HR|]. intros x Hx. by apply round_trip_lstm. }
  exists ([rm_layers m; Z.of_nat (length (rm_lstms m)); rm_window m; rm_mode m] ++ b). split.
  - intros w. unfold save_rmodel, fwrites. cbn [mbind option_bind]. rewrite S. by rewrite <- app_assoc.
  - intros rest. unfold load_rmodel_opened. cbn -[load_all recurrent_network Z.of_nat]. rewrite L. cbn [mbind option_bind]. rewrite list_fmap_id.
    by rewrite (recurrent_network_again _ _ _ _ _ _ H Hl).
Qed.

(** * Sequences of objects: saving one after the other, and loading in the same order *)
Lemma round_trip_l2 root l : reach_l2 l -> round_trip save_l2 (load_l2 root) l.
Proof.
  intros (root' & d & l0 & H & E). unfold l2_layer in H. case_decide; [done|]. injection H as <-. unfold l2_like in E. cbn in E.
  exists [l2_dim l; l2_train l; l2_g l]. split; [done|]. intros rest. cbn. unfold l2_layer. rewrite decide_False by lia. cbn. by destruct l.
Qed.
Lemma model_like_shape m n : model_like m n -> m_layers m = m_layers n /\ rshape <$> m_rls m = rshape <$> m_rls n /\ cshape <$> m_cls m = cshape <$> m_cls n
  /\ f_cfg <$> m_fcls m = f_cfg <$> m_fcls n.
Proof.
  intros (H1 & H2 & H3 & H4). split; [done|]. split; [by apply (fmap_like _ _ _ _ rl_like_shape)|]. split; [by apply (fmap_like _ _ _ _ cl_like_shape)|].
  eapply fmap_like; [|exact H4]. intros x y Hxy. apply Hxy.
Qed.
Lemma output_dimension_like m n : model_like m n -> output_dimension m = output_dimension n.
Proof.
  intros (H1 & H2 & H3 & H4)%model_like_shape. unfold output_dimension. rewrite H1, H2, H3.
  destruct (is_last _ _); [done|]. destruct (is_last _ _); [done|].
  assert (E : f_cfg <$> list.last (m_fcls m) = f_cfg <$> list.last (m_fcls n)) by (by rewrite <- !fmap_last, H4).
  destruct (list.last (m_fcls m)), (list.last (m_fcls n)); cbn in E; try done. injection E as ->. done.
Qed.
Lemma input_size_like m n : model_like m n -> input_size m = input_size n.
Proof. intros (H1 & H2 & H3 & H4)%model_like_shape. unfold input_size. by rewrite H1, H2, H3, H4. Qed.
Lemma is_linear_like m n : model_like m n -> is_linear m = is_linear n.
Proof.
  intros H. destruct (model_like_shape _ _ H) as (_ & _ & _ & H4). destruct H as (_ & H2 & H3 & _). unfold is_linear. rewrite H4.
  destruct H2; [|done]. by destruct H3.
Qed.
Lemma first_size_like m n : model_like m n -> first_size m = first_size n.
Proof. intros (H1 & H2 & H3 & H4)%model_like_shape. unfold first_size. by rewrite H2, H3, H4. Qed.
Lemma cl_likes_refl l : Forall2 cl_like l l.
Proof. induction l; constructor; [apply cl_like_refl|done]. Qed.
Lemma with_k_models k m : model_like (model_with_k k m) m.
Proof.
  repeat split; cbn.
  - induction (m_rls m); constructor; [apply rl_like_refl|done].
  - apply cl_likes_refl.
  - apply Forall2_fmap_l_like, with_k_like.
Qed.
Lemma rl_like_trans f g h : rl_like f g -> rl_like g h -> rl_like f h.
Proof.
  intros (A1 & A2 & A3 & A4) (B1 & B2 & B3 & B4). repeat split; try congruence. eapply Forall2_transitive; [apply cl_like_trans|done|done].
Qed.
Lemma model_like_trans f g h : model_like f g -> model_like g h -> model_like f h.
Proof.
  intros (A1 & A2 & A3 & A4) (B1 & B2 & B3 & B4). split; [congruence|].
  split; [eapply Forall2_transitive; [apply rl_like_trans|done|done]|].
  split; [eapply Forall2_transitive; [apply cl_like_trans|done|done]|eapply Forall2_transitive; [apply fcl_like_trans|done|done]].
Qed.
Lemma round_trip_head r h : reach_head h -> round_trip_to save_head (load_head r) h (head_with_k f1 h).
Proof.
  intros (Hq & Hk & Hv). destruct (round_trip_model r _ Hq) as (b1 & S1 & L1). destruct (round_trip_model r _ Hk) as (b2 & S2 & L2).
  destruct (round_trip_model r _ Hv) as (b3 & S3 & L3). exists (b1 ++ b2 ++ b3). split.
  - intros w. unfold save_head. rewrite S1. cbn [mbind option_bind]. rewrite S2. cbn [mbind option_bind]. rewrite S3. by rewrite <- !app_assoc.
  - intros rest. unfold load_head. rewrite <- !app_assoc, L1. cbn [mbind option_bind]. rewrite L2. cbn [mbind option_bind]. rewrite L3. done.
Qed.

(** * Transformer encoders *)
Lemma is_l2_norm n : is_l2 (if is_l2 n then n else NO_NORMALIZATION) = is_l2 n.
Proof. by destruct (is_l2 n) eqn:E. Qed.
Lemma if_l2_idem n : (if is_l2 (if is_l2 n then n else NO_NORMALIZATION) then (if is_l2 n then n else NO_NORMALIZATION) else NO_NORMALIZATION)
  = if is_l2 n then n else NO_NORMALIZATION.
Proof. rewrite is_l2_norm. by destruct (is_l2 n). Qed.
Definition norm_res (r : Z) : Z := if decide (r = TRANSFORMER_RESIDUAL) then r else TRANSFORMER_NO_RESIDUAL.
Lemma norm_res_idem r : (if decide (norm_res r = TRANSFORMER_RESIDUAL) then norm_res r else TRANSFORMER_NO_RESIDUAL) = norm_res r.
Proof. unfold norm_res. by repeat case_decide. Qed.
Lemma encoder_inv heads m lin l2 input n res1 norm1 res2 norm2 att kemb vemb t :
  transformer_encoder_layer heads m lin l2 input n res1 norm1 res2 norm2 att kemb vemb = Some t ->
  0 < input /\ 0 < n /\ 0 < kemb /\ 0 < vemb /\ Z.rem input n = 0 /\ n <= Z.of_nat (length heads)
  /\ t = Encoder kemb vemb att input (take (Z.to_nat n) heads) (norm_res res1) (norm_res res2) (if is_l2 norm1 then norm1 else NO_NORMALIZATION)
           (if is_l2 norm2 then norm2 else NO_NORMALIZATION) (take (b2n (is_l2 norm1) + b2n (is_l2 norm2)) (default [] l2)) m lin
  /\ (is_l2 norm1 = true -> exists x, default [] l2 !! 0%nat = Some x /\ l2_dim x = output_dimension lin)
  /\ (is_l2 norm2 = true -> exists x, default [] l2 !! b2n (is_l2 norm1) = Some x /\ l2_dim x = output_dimension m)
  /\ (is_l2 norm1 = false -> is_l2 norm2 = false -> l2 = None).
Proof.
  intros H. unfold transformer_encoder_layer in H.
  apply bind_Some in H as ([] & H1%reject_inv%bool_decide_eq_false & H). apply bind_Some in H as ([] & H2%reject_inv%bool_decide_eq_false & H).
  apply bind_Some in H as ([] & H3%reject_inv%bool_decide_eq_false & H). apply bind_Some in H as (r & H4 & H).
  apply bind_Some in H as ([] & H5%reject_inv%bool_decide_eq_false & H). cbv zeta in H.
  apply bind_Some in H as ([] & H6 & H). apply bind_Some in H as ([] & H7 & H). apply bind_Some in H as ([] & H8%reject_inv%bool_decide_eq_false & [= <-]).
  assert (Hr : r = Z.rem input n) by (unfold rem in H4; case_decide; [done|by injection H4]).
  split; [lia|]. split; [lia|]. split; [lia|]. split; [lia|]. split; [lia|]. split; [lia|]. split; [done|]. split; [|split].
  - intros E. rewrite E in H6. apply bind_Some in H6 as (x & Hx & H6%reject_inv%bool_decide_eq_false). exists x. split; [done|lia].
  - intros E. rewrite E in H7. apply bind_Some in H7 as (x & Hx & H7%reject_inv%bool_decide_eq_false). exists x. split; [done|lia].
  - intros E1 E2. apply bool_decide_eq_false in E1, E2. destruct l2; [|done]. exfalso. apply H2. done.
Qed.
Lemma Forall2_lookup_dim l l' i x : Forall2 l2_like l l' -> l' !! i = Some x -> exists y, l !! i = Some y /\ l2_dim y = l2_dim x.
Proof. intros H Hx. destruct (Forall2_lookup_r _ _ _ _ _ H Hx) as (y & Hy & E). by exists y. Qed.
(** what the constructor accepts once, it accepts again, trained or not *)
Lemma encoder_again heads m lin l2 input n res1 norm1 res2 norm2 att kemb vemb t t0 :
  transformer_encoder_layer heads m lin l2 input n res1 norm1 res2 norm2 att kemb vemb = Some t0 -> encoder_like t t0 ->
  transformer_encoder_layer (en_heads t) (en_m t) (en_lin t) (if decide (en_l2 t = []) then None else Some (en_l2 t)) (en_in t)
     (Z.of_nat (length (en_heads t))) (en_res1 t) (en_norm1 t) (en_res2 t) (en_norm2 t) (en_att t) (en_kemb t) (en_vemb t) = Some t
  /\ length (en_l2 t) = (b2n (is_l2 (en_norm1 t)) + b2n (is_l2 (en_norm2 t)))%nat.
Proof.
  intros (Hi & Hn & Hk & Hv & Hr & Hh & -> & H1 & H2 & H3)%encoder_inv (E1 & E2 & E3 & E4 & E5 & E6 & E7 & E8 & E9 & E10 & E11 & E12). cbn in *.
  assert (Hlen : length (en_l2 t) = (b2n (is_l2 norm1) + b2n (is_l2 norm2))%nat).
  { rewrite (Forall2_length _ _ _ E10), take_length. destruct (is_l2 norm1), (is_l2 norm2); cbn [b2n] in *; try lia.
    - destruct (H2 eq_refl) as (x & Hx%lookup_lt_Some & _). lia.
    - destruct (H1 eq_refl) as (x & Hx%lookup_lt_Some & _). lia.
    - destruct (H2 eq_refl) as (x & Hx%lookup_lt_Some & _). lia. }
  assert (Hhl : Z.of_nat (length (en_heads t)) = n) by (rewrite (Forall2_length _ _ _ E5), take_length; lia).
  split; [|by rewrite E8, E9, !is_l2_norm]. unfold transformer_encoder_layer. rewrite Hhl, E8, E9, !is_l2_norm.
  assert (Hdef : default [] (if decide (en_l2 t = []) then None else Some (en_l2 t)) = en_l2 t) by (case_decide as Hd; [by rewrite Hd|done]).
  eapply bind_ok.
  { unfold reject. rewrite bool_decide_eq_false_2; [reflexivity|]. case_decide as Hd; [|by intros [? _]]. intros [_ Hb].
    rewrite Hd in Hlen. destruct (is_l2 norm1), (is_l2 norm2); cbn in Hlen; try done. by destruct Hb. }
  eapply bind_ok.
  { unfold reject. rewrite bool_decide_eq_false_2; [reflexivity|]. case_decide as Hd; [by intros [? _]|]. intros (_ & Hb1 & Hb2).
    destruct (is_l2 norm1) eqn:F1; [apply bool_decide_eq_true in F1; done|]. destruct (is_l2 norm2) eqn:F2; [apply bool_decide_eq_true in F2; done|].
    cbn in Hlen. apply nil_length_inv in Hlen. done. }
  eapply bind_ok. { unfold reject. rewrite bool_decide_eq_false_2; [reflexivity|]. lia. }
  eapply bind_ok. { unfold rem. rewrite decide_False by lia. reflexivity. }
  rewrite E4. eapply bind_ok. { unfold reject. rewrite bool_decide_eq_false_2; [reflexivity|]. lia. }
  cbv zeta. rewrite Hdef.
  eapply bind_ok.
  { instantiate (1 := tt). destruct (is_l2 norm1) eqn:F1; [|done]. destruct (H1 eq_refl) as (x & Hx & Hd).
    destruct (Forall2_lookup_dim _ _ 0%nat x E10) as (y & Hy & Ey); [rewrite lookup_take; [done|rewrite ?F1; cbn; lia]|].
    unfold rd. rewrite Hy. cbn [mbind option_bind]. unfold reject. rewrite bool_decide_eq_false_2; [done|]. rewrite (output_dimension_like _ _ E12). lia. }
  eapply bind_ok.
  { instantiate (1 := tt). destruct (is_l2 norm2) eqn:F2; [|done]. destruct (H2 eq_refl) as (x & Hx & Hd).
    destruct (Forall2_lookup_dim _ _ (b2n (is_l2 norm1)) x E10) as (y & Hy & Ey); [rewrite lookup_take; [done|rewrite ?F2; cbn; lia]|].
    unfold rd. rewrite Hy. cbn [mbind option_bind]. unfold reject. rewrite bool_decide_eq_false_2; [done|]. rewrite (output_dimension_like _ _ E11). lia. }
  eapply bind_ok. { unfold reject. rewrite bool_decide_eq_false_2; [reflexivity|]. lia. }
  f_equal. rewrite take_ge by lia. rewrite take_ge by lia. rewrite E6, E7, !norm_res_idem.
  replace (if is_l2 norm1 then if is_l2 norm1 then norm1 else NO_NORMALIZATION else NO_NORMALIZATION) with (en_norm1 t) by (rewrite E8; by destruct (is_l2 norm1)).
  replace (if is_l2 norm2 then if is_l2 norm2 then norm2 else NO_NORMALIZATION else NO_NORMALIZATION) with (en_norm2 t) by (rewrite E9; by destruct (is_l2 norm2)).
  rewrite <- E4, <- E6, <- E7. by destruct t.
Qed.
Lemma head_like_trans f g h : head_like f g -> head_like g h -> head_like f h.
Proof. intros (A1 & A2 & A3) (B1 & B2 & B3). repeat split; try (by eapply model_like_trans); eapply model_like_trans; eauto. Qed.
Lemma heads_with_k k l l0 : Forall2 head_like l l0 -> Forall2 head_like (head_with_k k <$> l) l0.
Proof.
  intros H. induction H as [|x y l l0 H _ IH]; cbn; constructor; [|done]. eapply head_like_trans; [|exact H].
  split; [apply with_k_models|]. split; apply with_k_models.
Qed.
Lemma encoder_like_k k t t0 : encoder_like t t0 -> encoder_like (encoder_with_k k t) t0.
Proof.
  intros (E1 & E2 & E3 & E4 & E5 & E6 & E7 & E8 & E9 & E10 & E11 & E12). unfold encoder_like. cbn.
  repeat split; try done; try (by apply heads_with_k);
    first [apply (model_like_trans _ _ _ (with_k_models k _) E11)|apply (model_like_trans _ _ _ (with_k_models k _) E12)|idtac].
Qed.
Lemma round_trip_encoder r root t : reach_encoder t -> round_trip_to save_encoder (load_encoder r root) t (encoder_with_k f1 t).
Proof.
  intros ((Ph & Pl & Pm & Plin) & heads & m & lin & l2 & input & n & res1 & norm1 & res2 & norm2 & att & kemb & vemb & t0 & H & Hl).
  destruct (round_trip_list save_l2 (load_l2 root) (en_l2 t) id) as (b1 & S1 & L1).
  { eapply list.Forall_impl; [exact Pl|]. intros x Hx. by apply round_trip_l2. }
  destruct (round_trip_list save_head (load_head r) (en_heads t) (head_with_k f1)) as (b2 & S2 & L2).
  { eapply list.Forall_impl; [exact Ph|]. intros x Hx. by apply round_trip_head. }
  destruct (round_trip_model r _ Pm) as (b3 & S3 & L3). destruct (round_trip_model r _ Plin) as (b4 & S4 & L4).
  exists ([en_kemb t; en_vemb t; en_att t; en_in t; Z.of_nat (length (en_heads t)); en_res1 t; en_res2 t; en_norm1 t; en_norm2 t] ++ b1 ++ b2 ++ b3 ++ b4). split.
  - intros w. unfold save_encoder, fwrites. cbn [mbind option_bind]. rewrite S1. cbn [mbind option_bind]. rewrite S2. cbn [mbind option_bind].
    rewrite S3. cbn [mbind option_bind]. rewrite S4. by rewrite <- !app_assoc.
  - intros rest. destruct (encoder_again _ _ _ _ _ _ _ _ _ _ _ _ _ _ _ H (encoder_like_k f1 _ _ Hl)) as [Ha Hlen].
    cbn [en_kemb en_vemb en_att en_in en_heads en_res1 en_res2 en_norm1 en_norm2 en_l2 en_m en_lin encoder_with_k] in Ha, Hlen.
    unfold load_encoder. rewrite <- !app_assoc. cbn -[load_all transformer_encoder_layer Z.of_nat b2n Nat.add load_model_opened].
    rewrite <- Hlen, L1. cbn [mbind option_bind]. rewrite list_fmap_id, L2. cbn [mbind option_bind]. rewrite L3. cbn [mbind option_bind].
    rewrite L4. cbn [mbind option_bind]. rewrite fmap_length in Ha.
    replace (if decide (length (en_l2 t) = 0%nat) then None else Some (en_l2 t)) with (if decide (en_l2 t = []) then None else Some (en_l2 t)).
    + by rewrite Ha.
    + destruct (en_l2 t); [done|]. by rewrite !decide_False.
Qed.

(** * Transformer decoders *)
Lemma drop_app_exact {A} (a b : list A) n : length a = n -> drop n (a ++ b) = b.
Proof. intros <-. apply drop_app. Qed.
Lemma take_app_exact {A} (a b : list A) n : length a = n -> take n (a ++ b) = a.
Proof. intros <-. apply take_app. Qed.
Lemma decoder_again input lft n1 n2 res1 norm1 res2 norm2 res3 norm3 att1 att2 enc_in m lin1 lin2 heads l2 dk dv ek ev t t0 :
  transformer_decoder_layer input lft n1 n2 res1 norm1 res2 norm2 res3 norm3 att1 att2 enc_in m lin1 lin2 heads l2 dk dv ek ev = Some t0 ->
  decoder_like t t0 ->
  let e := de_e t in
  transformer_decoder_layer (de_in t) (de_left t) (Z.of_nat (length (de_heads t))) (Z.of_nat (length (en_heads e))) (de_res t) (de_norm t) (en_res1 e)
    (en_norm1 e) (en_res2 e) (en_norm2 e) (de_att t) (en_att e) (de_enc_in t) (en_m e) (de_lin t) (en_lin e) (de_heads t ++ en_heads e)
    (if decide (de_l2 t ++ en_l2 e = []) then None else Some (de_l2 t ++ en_l2 e)) (de_kemb t) (de_vemb t) (en_kemb e) (en_vemb e) = Some t
  /\ length (de_l2 t) = b2n (is_l2 (de_norm t))
  /\ exists heads m lin l2 input n res1 norm1 res2 norm2 att kemb vemb e0,
       transformer_encoder_layer heads m lin l2 input n res1 norm1 res2 norm2 att kemb vemb = Some e0 /\ encoder_like e e0.
Proof.
  intros H (E1 & E2 & E3 & E4 & E5 & E6 & E7 & E8 & E9 & E10 & E11 & E12). unfold transformer_decoder_layer in H.
  apply bind_Some in H as ([] & H1%reject_inv%bool_decide_eq_false & H). apply bind_Some in H as (r & H2 & H).
  apply bind_Some in H as ([] & H3%reject_inv%bool_decide_eq_false & H). apply bind_Some in H as (r' & H4 & H).
  apply bind_Some in H as ([] & H5%reject_inv%bool_decide_eq_false & H). cbv zeta in H.
  apply bind_Some in H as (e0 & He & H). apply bind_Some in H as ([] & H6%reject_inv & [= <-]).
  apply orb_false_iff in H6 as [H6%bool_decide_eq_false H7%bool_decide_eq_false].
  cbn [de_kemb de_vemb de_in de_left de_heads de_att de_res de_norm de_enc_in de_l2 de_lin de_e] in *.
  destruct (encoder_again _ _ _ _ _ _ _ _ _ _ _ _ _ _ _ He E12) as [Ha Hel].
  assert (Hhl : length (de_heads t) = Z.to_nat n1) by (rewrite (Forall2_length _ _ _ E5), take_length; lia).
  assert (Hll : length (de_l2 t) = b2n (is_l2 norm1)) by (rewrite (Forall2_length _ _ _ E10), take_length; lia).
  assert (Hd : is_l2 norm1 = true -> en_l2 (de_e t) <> []).
  { intros En Enil. destruct (encoder_inv _ _ _ _ _ _ _ _ _ _ _ _ _ _ He) as (_ & _ & _ & _ & _ & _ & -> & _ & _ & Hx).
    destruct E12 as (_ & _ & _ & _ & _ & _ & _ & F8 & F9 & _). cbn in F8, F9. rewrite F8, F9, !is_l2_norm, Enil in Hel.
    rewrite En in Hx. destruct (is_l2 norm2), (is_l2 norm3); cbn in Hel; try done. specialize (Hx eq_refl eq_refl). destruct l2; done. }
  split; [|split; [by rewrite E8, is_l2_norm, Hll|do 14 eexists; split; [exact He|exact E12]]].
  unfold transformer_decoder_layer. cbv zeta. rewrite E8, is_l2_norm.
  assert (He_in : en_in (de_e t) = enc_in).
  { destruct (encoder_inv _ _ _ _ _ _ _ _ _ _ _ _ _ _ He) as (_ & _ & _ & _ & _ & _ & -> & _). by destruct E12 as (_ & _ & _ & F & _). }
  assert (He_n : 0 < Z.of_nat (length (en_heads (de_e t)))).
  { destruct (encoder_inv _ _ _ _ _ _ _ _ _ _ _ _ _ _ He) as (_ & Hn2 & _ & _ & _ & Hle & -> & _). destruct E12 as (_ & _ & _ & _ & F & _).
    rewrite (Forall2_length _ _ _ F). cbn. rewrite take_length. lia. }
  eapply bind_ok. { unfold reject. rewrite bool_decide_eq_false_2; [reflexivity|]. lia. }
  rewrite E3, Hhl. replace (Z.of_nat (Z.to_nat n1)) with n1 by lia.
  eapply bind_ok; [exact H2|]. eapply bind_ok. { unfold reject. rewrite bool_decide_eq_false_2; [reflexivity|]. lia. }
  eapply bind_ok; [rewrite E2; exact H4|]. eapply bind_ok. { unfold reject. rewrite bool_decide_eq_false_2; [reflexivity|]. lia. }
  eapply (bind_ok _ _ (de_e t)).
  { rewrite drop_app_exact by lia. rewrite E9, <- He_in. etransitivity; [|exact Ha]. f_equal.
    destruct (decide (en_l2 (de_e t) = [])) as [En|En].
    - destruct (is_l2 norm1) eqn:F1; [by destruct (Hd eq_refl)|]. cbn in Hll. apply nil_length_inv in Hll. rewrite Hll, En. done.
    - rewrite decide_False by (intros Hn; apply app_eq_nil in Hn as [_ Hn]; done). f_equal. apply drop_app_exact. done. }
  assert (Hdef : default [] (if decide (de_l2 t ++ en_l2 (de_e t) = []) then None else Some (de_l2 t ++ en_l2 (de_e t))) = de_l2 t ++ en_l2 (de_e t))
    by (clear; case_decide as Hdd; [by rewrite Hdd|done]).
  rewrite Hdef.
  eapply bind_ok.
  { unfold reject. rewrite bool_decide_eq_false_2 by (rewrite app_length; lia). cbn [orb].
    rewrite bool_decide_eq_false_2 by (rewrite app_length; lia). reflexivity. }
  f_equal. rewrite take_app_exact by lia. rewrite take_app_exact by lia. rewrite E7. fold (norm_res res1). rewrite norm_res_idem.
  replace (if is_l2 norm1 then if is_l2 norm1 then norm1 else NO_NORMALIZATION else NO_NORMALIZATION) with (de_norm t) by (rewrite E8; by destruct (is_l2 norm1)).
  unfold norm_res. rewrite <- E7, <- E3. by destruct t.
Qed.
Lemma decoder_like_k k t t0 : decoder_like t t0 -> decoder_like (decoder_with_k k t) t0.
Proof.
  intros (E1 & E2 & E3 & E4 & E5 & E6 & E7 & E8 & E9 & E10 & E11 & E12). unfold decoder_like. cbn.
  split_and!; try done; [by apply heads_with_k|apply (model_like_trans _ _ _ (with_k_models k _) E11)|by apply encoder_like_k].
Qed.
Lemma round_trip_decoder r root t : reach_decoder t -> round_trip_to save_decoder (load_decoder r root) t (decoder_with_k f1 t).
Proof.
  intros (Ph & Pl & Plin & Pe & input & lft & n1 & n2 & res1 & norm1 & res2 & norm2 & res3 & norm3 & att1 & att2 & enc_in & m & lin1 & lin2 & heads & l2
          & dk & dv & ek & ev & t0 & H & Hl).
  destruct (decoder_again _ _ _ _ _ _ _ _ _ _ _ _ _ _ _ _ _ _ _ _ _ _ _ _ H Hl) as (_ & _ & Hen).
  destruct (decoder_again _ _ _ _ _ _ _ _ _ _ _ _ _ _ _ _ _ _ _ _ _ _ _ _ H (decoder_like_k f1 _ _ Hl)) as (Ha & Hlen & _).
  destruct (round_trip_list save_l2 (load_l2 root) (de_l2 t) id) as (b1 & S1 & L1).
  { eapply list.Forall_impl; [exact Pl|]. intros x Hx. by apply round_trip_l2. }
  destruct (round_trip_list save_head (load_head r) (de_heads t) (head_with_k f1)) as (b2 & S2 & L2).
  { eapply list.Forall_impl; [exact Ph|]. intros x Hx. by apply round_trip_head. }
  destruct (round_trip_model r _ Plin) as (b3 & S3 & L3).
  destruct (round_trip_encoder r root (de_e t)) as (b4 & S4 & L4); [by split|].
  exists ([de_kemb t; de_vemb t; de_in t; de_left t; Z.of_nat (length (de_heads t)); de_att t; de_res t; de_norm t; de_enc_in t] ++ b1 ++ b2 ++ b3 ++ b4). split.
  - intros w. unfold save_decoder, fwrites. cbn [mbind option_bind]. rewrite S1. cbn [mbind option_bind]. rewrite S2. cbn [mbind option_bind].
    rewrite S3. cbn [mbind option_bind]. rewrite S4. by rewrite <- !app_assoc.
  - intros rest. cbv zeta in Ha.
    change (de_l2 (decoder_with_k f1 t)) with (de_l2 t) in Ha, Hlen. change (de_norm (decoder_with_k f1 t)) with (de_norm t) in Ha, Hlen.
    unfold load_decoder. rewrite <- !app_assoc. cbn -[load_all transformer_decoder_layer Z.of_nat b2n load_model_opened load_encoder encoder_with_k].
    rewrite <- Hlen, L1. cbn [mbind option_bind]. rewrite list_fmap_id, L2. cbn [mbind option_bind]. rewrite L3. cbn [mbind option_bind].
    rewrite L4. cbn [mbind option_bind]. change (de_e (decoder_with_k f1 t)) with (encoder_with_k f1 (de_e t)) in Ha.
    replace (Z.of_nat (length (de_heads t))) with (Z.of_nat (length (de_heads (decoder_with_k f1 t)))) by (cbn; by rewrite fmap_length).
    eapply bind_ok; [exact Ha|done].
Qed.

(** * Transformers *)
Lemma round_trip_encoders r root l : Forall reach_encoder l -> exists bytes,
  (forall w, save_all (Z.of_nat (length l)) l save_encoder w = Some (w ++ bytes))
  /\ forall rest, load_all (Z.of_nat (length l)) (load_encoder r root) (bytes ++ rest) = Some (encoder_with_k f1 <$> l, rest).
Proof. intros H. apply round_trip_list. eapply list.Forall_impl; [exact H|]. intros x Hx. by apply round_trip_encoder. Qed.
Lemma round_trip_decoders r root l : Forall reach_decoder l -> exists bytes,
  (forall w, save_all (Z.of_nat (length l)) l save_decoder w = Some (w ++ bytes))
  /\ forall rest, load_all (Z.of_nat (length l)) (load_decoder r root) (bytes ++ rest) = Some (decoder_with_k f1 <$> l, rest).
Proof. intros H. apply round_trip_list. eapply list.Forall_impl; [exact H|]. intros x Hx. by apply round_trip_decoder. Qed.
Lemma round_trip_transf r root addr te conn : Forall reach_encoder te -> te <> [] ->
  round_trip_to (save_transf addr) (load_transf r root) (Transformer te [] conn) (Transformer (encoder_with_k f1 <$> te) [] None).
Proof.
  intros H Hne. destruct (round_trip_encoders r root te H) as (b & S & L). exists ([Z.of_nat (length te); 0] ++ b). split.
  - intros w. unfold save_transf, fwrites. cbn [tr_te tr_td tr_conn length mbind option_bind]. change (Z.of_nat 0) with 0.
    rewrite (bool_decide_eq_false_2 (0 <> 0)) by tauto. cbn [andb mbind option_bind]. rewrite S. cbn. by rewrite <- app_assoc.
  - intros rest. unfold load_transf. cbn -[load_all Z.of_nat load_encoder load_decoder].
    rewrite decide_False by tauto. cbn [mbind option_bind]. rewrite L. cbn -[Z.of_nat]. rewrite bool_decide_eq_false_2; [done|]. destruct te; cbn; [done|lia].
Qed.
(** one encoder, one decoder: what comes back is not the connection but an address *)
Lemma round_trip_transf_1 r root addr e d row : reach_encoder e -> reach_decoder d ->
  round_trip_to (save_transf addr) (load_transf r root) (Transformer [e] [d] (Some [row]))
    (Transformer [encoder_with_k f1 e] [decoder_with_k f1 d] (Some [[addr 0%nat]])).
Proof.
  intros He Hd. destruct (round_trip_encoders r root [e]) as (b & S & L); [by apply list.Forall_singleton|].
  destruct (round_trip_decoders r root [d]) as (b' & S' & L'); [by apply list.Forall_singleton|]. cbn [length] in *. exists ([1; 1] ++ [addr 0%nat] ++ b ++ b'). split.
  - intros w. unfold save_transf, fwrites. cbn [tr_te tr_td tr_conn length mbind option_bind]. change (Z.of_nat 1) with 1 in *.
    rewrite (bool_decide_eq_true_2 (1 <> 0)) by done. rewrite bool_decide_eq_true_2 by done. cbn [andb].
    change (Z.to_nat 1) with 1%nat. cbn [for_loop]. rewrite decide_False by tauto. cbn [mbind option_bind]. rewrite S. cbn [mbind option_bind]. rewrite S'.
    by rewrite <- !app_assoc.
  - intros rest. unfold load_transf. change (Z.of_nat 1) with 1 in *. cbn -[load_all load_encoder load_decoder for_loop].
    rewrite (decide_True (P := 1 <> 0)) by done. change (Z.to_nat 1) with 1%nat. cbn [for_loop]. rewrite decide_False by (intros [?|?]; done).
    cbn [mbind option_bind fst snd]. change (addr 0%nat :: (b ++ b') ++ rest) with ([addr 0%nat] ++ (b ++ b') ++ rest). rewrite fread_ok by done.
    cbn [mbind option_bind fst snd app]. rewrite <- app_assoc. rewrite L. cbn [mbind option_bind]. rewrite L'. done.
Qed.
Lemma save_transf_exits addr te td conn w : te <> [] -> (2 <= length td)%nat -> save_transf addr (Transformer te td (Some conn)) w = None.
Proof.
  intros Ht Hd. unfold save_transf, fwrites. cbn [tr_te tr_td tr_conn mbind option_bind]. rewrite (bool_decide_eq_true_2 (Z.of_nat (length td) <> 0)) by lia.
  rewrite bool_decide_eq_true_2 by done. cbn [andb]. rewrite Nat2Z.id. destruct te as [|e te]; [done|]. cbn [length for_loop].
  rewrite decide_True by lia. done.
Qed.
Lemma load_transf_None r root n_te n_td rest : 2 <= n_te -> n_td <> 0 -> load_transf r root (n_te :: n_td :: rest) = None.
Proof.
  intros H1 H2. unfold load_transf. cbn -[load_all for_loop]. rewrite decide_True by done. destruct (Z.to_nat n_te) as [|[|k]] eqn:E; [lia|lia|].
  cbn [for_loop]. destruct (decide (0%nat <> 0%nat \/ n_td <> 1)); [done|]. cbn [snd fst]. destruct (fread n_td rest) as [[x w]|]; [|done].
  cbn [mbind option_bind]. rewrite decide_True by (by left). done.
Qed.
Lemma save_rows (addr : nat -> word) body n i : (forall j (w : file), body j w = Some (w ++ [addr j])) ->
  exists rows, forall w : file, for_loop n i body w = Some (w ++ rows).
Proof.
  intros H. revert i. induction n as [|n IH]; intros i; cbn; [exists []; intros; by rewrite app_nil_r|].
  destruct (IH (S i)) as (rows & Hr). exists ([addr i] ++ rows). intros w. rewrite H. cbn. rewrite Hr. by rewrite <- app_assoc.
Qed.
Lemma transf_overflows r root addr te d conn : Forall reach_encoder te -> reach_decoder d -> (2 <= length te)%nat ->
  exists bytes, (forall w, save_transf addr (Transformer te [d] (Some conn)) w = Some (w ++ bytes)) /\ forall rest, load_transf r root (bytes ++ rest) = None.
Proof.
  intros He Hd Hl. destruct (round_trip_encoders r root te He) as (b & S & _).
  destruct (round_trip_decoders r root [d]) as (b' & S' & _); [by apply list.Forall_singleton|]. cbn [length] in *. change (Z.of_nat 1) with 1 in *.
  destruct (save_rows addr (fun j w => if decide (1 <> 1) then None else fwrites [addr j] w) (length te) 0) as (rs & Hrs).
  { intros. rewrite decide_False by tauto. done. }
  exists ([Z.of_nat (length te); 1] ++ rs ++ b ++ b'). split.
  - intros w. unfold save_transf, fwrites. cbn [tr_te tr_td tr_conn length mbind option_bind]. change (Z.of_nat 1) with 1.
    rewrite (bool_decide_eq_true_2 (1 <> 0)) by done. rewrite bool_decide_eq_true_2 by done. cbn [andb]. rewrite Nat2Z.id. rewrite Hrs. cbn [mbind option_bind].
    rewrite S. cbn [mbind option_bind]. rewrite S'. by rewrite <- !app_assoc.
  - intros rest. apply load_transf_None; lia.
Qed.

(** * Dueling networks *)
Lemma dqn_again input actions atoms vmin vmax shared vh ah vl al d d0 : dqn_init input actions atoms vmin vmax shared vh ah vl al = Some d0 -> dqn_like d d0 ->
  dqn_init (q_in d) (q_actions d) (q_atoms d) (q_vmin d) (q_vmax d) (q_shared d) (q_vh d) (q_ah d) (q_vl d) (q_al d)
  = Some (Dqn 0 (q_in d) (q_actions d) (q_atoms d) (q_vmin d) (q_vmax d) (q_shared d) (q_vh d) (q_vl d) (q_ah d) (q_al d)).
Proof.
  intros H (E1 & E2 & E3 & E4 & E5 & M1 & M2 & M3 & M4 & M5). unfold dqn_init in H.
  repeat match type of H with reject _ ≫= _ = Some _ => let Hr := fresh "R" in apply bind_Some in H as ([] & Hr & H) end.
  injection H as <-. cbn [q_in q_actions q_atoms q_vmin q_vmax q_shared q_vh q_vl q_ah q_al] in *.
  unfold dqn_init. rewrite E1, E2, E3, E4, E5.
  rewrite (output_dimension_like _ _ M1), (output_dimension_like _ _ M2), (output_dimension_like _ _ M3), (output_dimension_like _ _ M4), (output_dimension_like _ _ M5).
  rewrite (input_size_like _ _ M1), (input_size_like _ _ M2), (input_size_like _ _ M3), (input_size_like _ _ M4), (input_size_like _ _ M5).
  rewrite (is_linear_like _ _ M3), (is_linear_like _ _ M5). rewrite (proj1 M1), (proj1 M2), (proj1 M3), (proj1 M4), (proj1 M5).
  repeat (eapply bind_ok; [eassumption|]; cbv beta). done.
Qed.
Lemma round_trip_dqn r d : reach_dqn d -> round_trip_to save_dqn (load_dqn r) d (dqn_with_k f1 d).
Proof.
  intros (R1 & R2 & R3 & R4 & R5 & input & actions & atoms & vmin & vmax & shared & vh & ah & vl & al & d0 & H & Hl).
  destruct (round_trip_model r _ R1) as (b1 & S1 & L1). destruct (round_trip_model r _ R2) as (b2 & S2 & L2). destruct (round_trip_model r _ R3) as (b3 & S3 & L3).
  destruct (round_trip_model r _ R4) as (b4 & S4 & L4). destruct (round_trip_model r _ R5) as (b5 & S5 & L5).
  exists (dqn_header d ++ b1 ++ b2 ++ b3 ++ b4 ++ b5). split.
  - intros w. unfold save_dqn, save_dqn_models, fwrites. cbn [mbind option_bind]. rewrite S1. cbn [mbind option_bind]. rewrite S2. cbn [mbind option_bind].
    rewrite S3. cbn [mbind option_bind]. rewrite S4. cbn [mbind option_bind]. rewrite S5. by rewrite <- !app_assoc.
  - intros rest. unfold load_dqn, dqn_header. rewrite <- !app_assoc. cbn -[load_model_opened dqn_init]. rewrite L1. cbn [mbind option_bind]. rewrite L2. cbn [mbind option_bind].
    rewrite L3. cbn [mbind option_bind]. rewrite L4. cbn [mbind option_bind]. rewrite L5. cbn [mbind option_bind].
    assert (Hk : dqn_like (dqn_with_k f1 d) d0).
    { destruct Hl as (E1 & E2 & E3 & E4 & E5 & M1 & M2 & M3 & M4 & M5). unfold dqn_like. cbn.
      pose proof (model_like_trans _ _ _ (with_k_models f1 _) M1). pose proof (model_like_trans _ _ _ (with_k_models f1 _) M2).
      pose proof (model_like_trans _ _ _ (with_k_models f1 _) M3). pose proof (model_like_trans _ _ _ (with_k_models f1 _) M4).
      pose proof (model_like_trans _ _ _ (with_k_models f1 _) M5). tauto. }
    pose proof (dqn_again _ _ _ _ _ _ _ _ _ _ _ _ H Hk) as Ha. cbn [q_in q_actions q_atoms q_vmin q_vmax q_shared q_vh q_vl q_ah q_al dqn_with_k] in Ha.
    rewrite Ha. done.
Qed.

(** * Variational autoencoders *)
Lemma round_trip_vae r v : reach_vae v -> v_latent v = first_size (v_dec v) ->
  exists bn bm, (forall wn wm, save_vae v wn wm = Some (wn ++ bn, wm ++ bm)) /\ load_vae r bn bm = Some (vae_with_k f1 v).
Proof.
  intros (Re & Rd & enc & dec & Hv & Me & Md) Hl. destruct (round_trip_model r _ Re) as (b1 & S1 & L1). destruct (round_trip_model r _ Rd) as (b2 & S2 & L2).
  exists b1, b2. split.
  - intros. unfold save_vae. rewrite S1. cbn [mbind option_bind]. rewrite S2. done.
  - unfold load_vae, load_model. specialize (L1 []). specialize (L2 []). rewrite app_nil_r in L1, L2. rewrite L1, L2. cbn [fmap option_fmap option_map fst mbind option_bind].
    unfold vae_model in *. rewrite (first_size_like _ _ (with_k_models f1 (v_dec v))), <- Hl.
    rewrite (output_dimension_like _ _ (with_k_models f1 (v_enc v))), (output_dimension_like _ _ Me). case_decide; [done|]. by destruct v.
Qed.
(** both in one file: the decoder that is loaded is the encoder *)
Lemma vae_one_file r v : reach_vae v -> exists w0 w, save_vae v [] [] = Some w0 /\ (w1 ← save_model (v_enc v) []; save_model (v_dec v) w1) = Some w
  /\ forall v', load_vae r w w = Some v' -> v_dec v' = model_with_k f1 (v_enc v).
Proof.
  intros (Re & Rd & _). destruct (round_trip_model r _ Re) as (b1 & S1 & L1). destruct (round_trip_model r _ Rd) as (b2 & S2 & L2).
  exists (b1, b2), (b1 ++ b2). unfold save_vae. rewrite S1. cbn [mbind option_bind]. rewrite !S2. split; [done|]. split; [done|].
  intros v'. unfold load_vae, load_model. rewrite L1. cbn. unfold vae_model. case_decide; [done|]. by intros [= <-].
Qed.

(** * EfficientZero models *)
Lemma round_trip_ez r batch m : reach_ez m -> 1 <= batch -> round_trip_to save_ez (load_ez r batch) m (ez_with_k f1 batch m).
Proof.
  intros (Rm & Rr & Rp & Hi) Hb. destruct (round_trip_list save_model (load_model_opened r) (z_models m) (model_with_k f1)) as (b1 & S1 & L1).
  { eapply list.Forall_impl; [exact Rm|]. intros x Hx. by apply round_trip_model. }
  destruct (round_trip_rmodel (rd_w r) _ Rr) as (b2 & S2 & L2).
  unfold ez_init in Hi. case_decide as Hd; [done|]. assert (H7 : length (z_models m) = 7%nat) by (destruct (decide (length (z_models m) = 7%nat)); [done|]; exfalso; apply Hd; tauto).
  rewrite H7 in S1, L1. change (Z.of_nat 7) with 7 in *.
  assert (Hw : 2 <= z_window m) by lia.
  destruct (z_p m) as [[p1 p2]|] eqn:Ep.
  - destruct (Rp _ _ eq_refl) as [Rp1 Rp2]. destruct (round_trip_model r _ Rp1) as (b3 & S3 & L3). destruct (round_trip_model r _ Rp2) as (b4 & S4 & L4).
    exists ([z_batch m; z_window m; 1; 1] ++ b3 ++ b4 ++ b1 ++ b2). split.
    + intros w. unfold save_ez, fwrites. rewrite Ep. cbn [mbind option_bind]. rewrite S3. cbn [mbind option_bind]. rewrite S4. cbn [mbind option_bind]. rewrite S1.
      cbn [mbind option_bind]. rewrite S2. by rewrite <- !app_assoc.
    + intros rest. unfold load_ez. rewrite <- !app_assoc. cbn -[load_all load_model_opened load_rmodel_opened ez_init].
      rewrite !(decide_True (P := 1 <> 0)) by done. rewrite L3. cbn -[load_all load_model_opened load_rmodel_opened ez_init].
      rewrite L4. cbn [mbind option_bind]. rewrite L1. cbn -[load_all load_model_opened load_rmodel_opened ez_init]. rewrite L2.
      cbn -[ez_init]. unfold ez_init. rewrite decide_False by (rewrite fmap_length; lia). unfold ez_with_k. rewrite Ep. done.
  - exists ([z_batch m; z_window m; 0; 0] ++ b1 ++ b2). split.
    + intros w. unfold save_ez, fwrites. rewrite Ep. cbn [mbind option_bind]. rewrite S1. cbn [mbind option_bind]. rewrite S2. by rewrite <- !app_assoc.
    + intros rest. unfold load_ez. rewrite <- !app_assoc. cbn -[load_all load_model_opened load_rmodel_opened ez_init].
      rewrite !(decide_False (P := 0 <> 0)) by tauto. cbn [mbind option_bind]. rewrite L1.
      cbn -[load_all load_model_opened load_rmodel_opened ez_init]. rewrite L2.
      cbn -[ez_init]. unfold ez_init. rewrite decide_False by (rewrite fmap_length; lia). unfold ez_with_k. rewrite Ep. done.
Qed.

(** * Vectors *)
Lemma vector_loses v : (forall l, ve_v v = Some l -> 0 < ve_size v /\ Z.of_nat (length l) = ve_size v) ->
  round_trip_to save_vector load_vector v (Vec (ve_in v) (ve_size v) (ve_out v) (ve_action v) (ve_act v) (ve_drop v) (ve_index v) (ve_thr v) None).
Proof.
  intros H. destruct (ve_v v) as [l|] eqn:E.
  - destruct (H l eq_refl) as [H1 H2]. exists ([ve_in v; ve_size v; ve_out v; ve_action v; ve_act v; ve_drop v; ve_index v; ve_thr v; 0] ++ l). split.
    + intros w. unfold save_vector, fwrites. rewrite E. cbn [mbind option_bind]. rewrite fwrite_ok by done. by rewrite <- !app_assoc.
    + intros rest. unfold load_vector. rewrite <- app_assoc. cbn -[fread]. rewrite fread_ok by done. done.
  - exists [ve_in v; ve_size v; ve_out v; ve_action v; ve_act v; ve_drop v; ve_index v; ve_thr v; 1]. split; [|done].
    intros w. unfold save_vector, fwrites. rewrite E. cbn [mbind option_bind]. by rewrite <- !app_assoc.
Qed.
