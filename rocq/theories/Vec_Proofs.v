(** Proofs for the vector layer. *)
From Coquelicot Require Import Coquelicot.
From Verif Require Import NumLib NumLib2 Grad Deriv Act_Model Act_Props Loss_Model Loss_Props Softmax_Model Softmax_Props FC_Model FC_Props Attn_Model Vec_Model Vec_Spec.
Open Scope nat_scope.

Definition filled (n : nat) (h : nat -> R) (o o' : list R) : Prop :=
  length o' = length o /\ (forall i, i < n -> el o' i = h i) /\ (forall i, n <= i -> o' !! i = o !! i).
Lemma filled_ext n h h' o o' : filled n h o o' -> (forall i, i < n -> h i = h' i) -> filled n h' o o'.
Proof. intros (? & H & ?) E. split; [done|]. split; [|done]. intros i Hi. by rewrite H, E. Qed.
Lemma map2_filled f g a b out n : n <= length a -> n <= length b -> n <= length out ->
  (forall i, i < n -> f (el a i) (el b i) = Some (g (el a i) (el b i))) ->
  exists o, map2_array f a b out n = Some o /\ filled n (fun i => g (el a i) (el b i)) out o.
Proof. intros. destruct (map2_componentwise f g a b out n) as (o & E & Hc); eauto. Qed.
Lemma map_filled f a out n : n <= length a -> n <= length out ->
  exists o, map_array f a out n = Some o /\ filled n (fun i => f (el a i)) out o.
Proof.
  intros Ha Ho. destruct (C22_array_versions f a out n Ha Ho) as (o & E & Hl & H1 & H2). exists o. split; [done|]. split; [done|]. split; [|done].
  intros i Hi. apply el_lookup. apply H1; [done|]. apply lookup_el. lia.
Qed.
Lemma loop_filled n (body : nat -> list R -> option (list R)) h out : n <= length out ->
  (forall i l, i < n -> length l = length out -> el l i = el out i -> body i l = wr l i (h i)) ->
  exists o, for_loop n 0 body out = Some o /\ filled n h out o.
Proof.
  intros Hn Hb. destruct (for_loop_inv (fun i l => filled i h out l) body n 0 out) as (o & E & Ho).
  - split; [done|]. split; [lia|done].
  - intros i l Hi (Hl & H1 & H2). rewrite Hb; [|lia|done|unfold el; by rewrite !nth_lookup, H2].
    eexists. split; [apply wr_Some; lia|].
    split; [by rewrite insert_length|]. split.
    + intros k Hk. destruct (decide (k = i)) as [->|]; [by rewrite el_upd_eq by lia|]. rewrite el_upd_ne by done. apply H1. lia.
    + intros k Hk. rewrite list_lookup_insert_ne by lia. apply H2. lia.
  - exists o. split; done.
Qed.
Lemma inverse_filled a out n : n <= length a -> n <= length out -> (forall i, i < n -> el a i <> 0%R) ->
  exists o, inverse a out n = Some o /\ filled n (fun i => / el a i)%R out o.
Proof.
  intros Ha Ho Hz. apply loop_filled; [done|]. intros i l Hi Hl _. rewrite rd_el by lia. cbn [mbind option_bind]. rewrite decide_False by auto.
  f_equal. unfold Rdiv. lra.
Qed.
Lemma mul_inplace_filled v a n : n <= length a -> exists o, mul_value_inplace v n a = Some o /\ filled n (fun i => el a i * v)%R a o.
Proof. intros Ha. apply loop_filled; [done|]. intros i l Hi Hl E. rewrite rd_el by lia. cbn [mbind option_bind]. by rewrite E. Qed.
Lemma div_inplace_filled a b n : n <= length a -> n <= length b -> (forall i, i < n -> el b i <> 0%R) ->
  exists o, div_inplace b n a = Some o /\ filled n (fun i => el a i / el b i)%R a o.
Proof.
  intros Ha Hb Hz. apply loop_filled; [done|]. intros i l Hi Hl E. rewrite (rd_el l), (rd_el b) by lia. cbn [mbind option_bind].
  rewrite decide_False by auto. cbn [mbind option_bind]. by rewrite E.
Qed.
Lemma el_app_l l1 l2 i : i < length l1 -> el (l1 ++ l2) i = el l1 i.
Proof. intros. unfold el. by rewrite app_nth1. Qed.
Lemma el_app_r l1 l2 i : el (l1 ++ l2) (length l1 + i) = el l2 i.
Proof. unfold el. rewrite app_nth2 by lia. f_equal. lia. Qed.
Lemma el_drop l n i : el (drop n l) i = el l (n + i).
Proof. unfold el. rewrite !nth_lookup. by rewrite lookup_drop. Qed.
Lemma el_take l n i : i < n -> el (take n l) i = el l i.
Proof. intros. unfold el. rewrite !nth_lookup. by rewrite lookup_take. Qed.
(** a statement on the part beyond n *)
Lemma on_tail_filled n f h ie : n <= length ie ->
  (exists t, f (drop n ie) = Some t /\ filled n h (drop n ie) t) ->
  exists o, on_tail n f ie = Some o /\ length o = length ie /\ (forall i, i < n -> el o i = el ie i) /\ (forall i, i < n -> el o (n + i) = h i) /\
    (forall i, n + n <= i -> o !! i = ie !! i).
Proof.
  intros Hn (t & E & Hl & H1 & H2). unfold on_tail. rewrite decide_True by done. rewrite E. cbn [mbind option_bind]. eexists. split; [done|].
  rewrite drop_length in Hl. split; [rewrite app_length, take_length, Hl; lia|].
  assert (Ht : length (take n ie) = n) by (rewrite take_length; lia). split; [|split].
  - intros i Hi. rewrite el_app_l by lia. by apply el_take.
  - intros i Hi. replace (n + i) with (length (take n ie) + i) by lia. rewrite el_app_r. by apply H1.
  - intros i Hi. rewrite lookup_app_r by lia. rewrite Ht, H2 by lia. rewrite lookup_drop. f_equal. lia.
Qed.

Lemma relu_max z : relu z = Rmax z 0.
Proof. unfold relu. destruct (decide (z > 0)%R); [rewrite Rmax_left|rewrite Rmax_right]; lra. Qed.
Lemma leaky_max z : leaky_relu z = Rmax z (z / 10).
Proof. unfold leaky_relu, leaky_threshold. destruct (decide (z > 0)%R); [rewrite Rmax_left|rewrite Rmax_right]; lra. Qed.
Lemma elu_max z : elu z 1 = (if decide (z > 0) then z else exp z - 1)%R.
Proof. unfold elu. destruct (decide (z > 0)%R); lra. Qed.

Ltac pick := repeat (first [rewrite decide_True by (first [done|congruence|lia|tauto])|rewrite decide_False by (first [done|congruence|lia|(intros [? | ?]; discriminate)])]).

Lemma same_size_yes x k : v_size x = output_size x -> same_size x k = k.
Proof. intros. unfold same_size. by rewrite decide_True. Qed.

Lemma forward1 draw input1 x g def sm : elementwise (action x) (activation_flag x) g def sm -> dropout_flag x = NO_DROPOUT -> shaped x ->
  output_size x <= length input1 -> (forall i, i < output_size x -> def (el (stored x) i) (el input1 i)) ->
  exists o, ff_vector1 draw input1 x = Some (with_output x o) /\ filled (output_size x) (fun i => g (el (stored x) i) (el input1 i)) (output x) o.
Proof.
  intros He Hd (Ho & _ & Hs & Hv) Hi Hdef. unfold ff_vector1. rewrite Hd.
  rewrite (decide_False (P := NO_DROPOUT = DROPOUT)), (decide_False (P := NO_DROPOUT = DROPOUT_TEST)) by done.
  assert (Hput : forall r h, (exists o, r = Some o /\ filled (output_size x) h (output x) o) -> (forall i, i < output_size x -> h i = g (el (stored x) i) (el input1 i)) ->
    exists o, put_output x r = Some (with_output x o) /\ filled (output_size x) (fun i => g (el (stored x) i) (el input1 i)) (output x) o).
  { intros r h (o & -> & Hf) E. exists o. split; [done|]. by eapply filled_ext. }
  assert (Hst : forall v, vv x = Some v -> stored x = v) by (intros v E; unfold stored; by rewrite E).
  remember (action x) as ac eqn:Eac. remember (activation_flag x) as af eqn:Eaf.
  destruct He; pick; rewrite ?same_size_yes by (apply Hs; discriminate);
    try (destruct Hv as (v & Ev & Hlv); [unfold binary; tauto|]; rewrite Hs in Hlv by discriminate; rewrite Ev; cbn [mbind option_bind]; rewrite (Hst v Ev) in *).
  - eapply Hput; [apply map2_filled with (g := Rplus); try done; lia|]. done.
  - eapply Hput; [apply map2_filled with (g := Rminus); try done; lia|]. done.
  - eapply Hput; [apply map2_filled with (g := Rmult); try done; lia|]. done.
  - eapply Hput; [apply map2_filled with (g := Rdiv); try lia|done]. intros i Hi'. by rewrite decide_False by auto.
  - eapply Hput; [apply inverse_filled; try lia; done|]. done.
  - eapply Hput; [apply (map_filled (fun z => z * -1)%R); lia|]. intros i Hi'. cbn. lra.
  - eapply Hput; [apply map_filled; lia|]. intros i Hi'. apply C22_sigmoid_is_logistic.
  - eapply Hput; [apply map_filled; lia|]. intros i Hi'. apply C22_tanhh_is_tanh.
  - eapply Hput; [apply map_filled; lia|]. intros i Hi'. apply relu_max.
  - eapply Hput; [apply map_filled; lia|]. intros i Hi'. apply leaky_max.
  - eapply Hput; [apply (map_filled (fun z => elu z 1)); lia|]. intros i Hi'. apply elu_max.
Qed.

(** the derivative each backward pass multiplies the error with *)
Lemma backward1 input1 x oe g def sm : elementwise (action x) (activation_flag x) g def sm -> shaped x ->
  output_size x <= length input1 -> output_size x <= length oe -> output_size x <= input_size x ->
  (forall i, i < output_size x -> def (el (stored x) i) (el input1 i)) ->
  exists g' e x', bp_vector1 input1 x oe = Some (e, x') /\
    (forall p z, def p z -> sm z -> derivable_pt_lim (g p) z (g' p z)) /\
    (forall i, i < output_size x -> el e i = (el oe i * g' (el (stored x) i) (el input1 i))%R).
Proof.
  intros He (Ho & Hie & Hs & Hv) Hi Hoe Hle Hdef. unfold bp_vector1.
  assert (Hown : forall r h g' , (exists o, r = Some o /\ filled (output_size x) h (input_error x) o) ->
    (forall p z, def p z -> sm z -> derivable_pt_lim (g p) z (g' p z)) ->
    (forall i, i < output_size x -> h i = (el oe i * g' (el (stored x) i) (el input1 i))%R) ->
    exists g' e x', own_error x r = Some (e, x') /\ (forall p z, def p z -> sm z -> derivable_pt_lim (g p) z (g' p z)) /\
    (forall i, i < output_size x -> el e i = (el oe i * g' (el (stored x) i) (el input1 i))%R)).
  { intros r h g' (o & -> & Hl & H1 & H2) Hd E. exists g', o. eexists. split; [done|]. split; [done|]. intros i Hlt. rewrite H1 by done. by apply E. }
  assert (Hthr : forall f' g', (forall p z, def p z -> sm z -> derivable_pt_lim (g p) z (g' p z)) -> (forall p z, g' p z = f' z) ->
    exists g' e x', through f' input1 oe x = Some (e, x') /\ (forall p z, def p z -> sm z -> derivable_pt_lim (g p) z (g' p z)) /\
    (forall i, i < output_size x -> el e i = (el oe i * g' (el (stored x) i) (el input1 i))%R)).
  { intros f' g' Hd E. unfold through.
    destruct (map_filled f' input1 (replicate (output_size x) 0%R) (output_size x)) as (t & Et & Hlt & Ht & _); [lia|rewrite replicate_length; lia|].
    rewrite replicate_length in Hlt. rewrite Et. cbn [mbind option_bind].
    eapply (Hown _ _ g'); [apply map2_filled with (g := Rmult); try done; lia|done|]. intros i Hlt'. cbn beta. rewrite Ht by done. rewrite E. lra. }
  assert (Hst : forall v, vv x = Some v -> stored x = v) by (intros v E; unfold stored; by rewrite E).
  remember (action x) as ac eqn:Eac. remember (activation_flag x) as af eqn:Eaf.
  destruct He; pick;
    try (destruct Hv as (v & Ev & Hlv); [unfold binary; tauto|]; rewrite Hs in Hlv by discriminate; rewrite ?(Hst v Ev) in *).
  - exists (fun _ _ => 1%R), oe, x. split; [done|]. split; [|intros; lra]. intros p z _ _. dlim; [done|lra].
  - exists (fun _ _ => 1%R), oe, x. split; [done|]. split; [|intros; lra]. intros p z _ _. dlim; [done|lra].
  - rewrite decide_True by (symmetry; apply Hs; discriminate). rewrite Ev. cbn [mbind option_bind].
    eapply (Hown _ _ (fun p _ => p)); [apply map2_filled with (g := Rmult); try done; lia| |done]. intros p z _ _. dlim; [done|lra].
  - rewrite decide_True by (symmetry; apply Hs; discriminate). rewrite Ev. cbn [mbind option_bind].
    eapply (Hown _ _ (fun p _ => / p)%R); [apply map2_filled with (g := Rdiv); try lia| |done].
    + intros i Hi'. by rewrite decide_False by auto.
    + intros p z Hp _. dlim; [done|]. by field.
  - destruct (map2_filled (fun a b => if decide (b = 0%R) then None else Some (a / b)%R) Rdiv oe input1 (input_error x) (output_size x)) as (e1 & E1 & Hl1 & H1 & H1'); [lia..| |].
    { intros i Hi'. by rewrite decide_False by auto. }
    unfold div1D. rewrite E1. cbn [mbind option_bind].
    destruct (div_inplace_filled e1 input1 (output_size x)) as (e2 & E2 & Hl2 & H2 & H2'); [lia..|auto|]. rewrite E2. cbn [mbind option_bind].
    destruct (mul_inplace_filled (-1)%R e2 (output_size x)) as (e3 & E3 & Hl3 & H3 & H3'); [lia|].
    eapply (Hown _ _ (fun _ z => - / (z * z))%R).
    + exists e3. split; [done|]. split; [lia|]. split; [exact H3|]. intros i Hge. by rewrite H3', H2', H1' by done.
    + intros p z Hz _. dlim; [done|]. by field.
    + intros i Hlt. cbn beta. rewrite H2, H1 by done. pose proof (Hdef i Hlt). cbn beta in *. by field.
  - eapply (Hown _ _ (fun _ _ => (-1)%R)); [apply (map_filled (fun z => z * -1)%R); lia| |done]. intros p z _ _. dlim; [done|lra].
  - eapply (Hthr _ (fun _ => derivative_sigmoid)); [|done]. intros p z _ _. eapply dlim_ext; [intros; symmetry; apply C22_sigmoid_is_logistic|]. apply C22_sigmoid_derivative.
  - eapply (Hthr _ (fun _ => derivative_tanhh)); [|done]. intros p z _ _. eapply dlim_ext; [intros; symmetry; apply C22_tanhh_is_tanh|]. apply C22_tanh_derivative.
  - eapply (Hthr _ (fun _ => derivative_relu)); [|done]. intros p z _ Hz. eapply dlim_ext; [intros; symmetry; apply relu_max|]. by apply C22_relu_derivative.
  - eapply (Hthr _ (fun _ => derivative_leaky_relu)); [|done]. intros p z _ Hz. eapply dlim_ext; [intros; symmetry; apply leaky_max|]. by apply C22_leaky_relu_derivative.
  - eapply (Hthr _ (fun _ z => derivative_elu z 1)); [|done]. intros p z _ Hz. eapply dlim_ext; [intros; symmetry; apply elu_max|]. by apply C22_elu_derivative.
Qed.

Lemma elementwise_open ac af g def sm : elementwise ac af g def sm -> forall p z, def p z -> exists d, (0 < d)%R /\ forall t, (Rabs (t - z) < d)%R -> def p t.
Proof.
  intros He p z Hd. destruct He; try (exists 1%R; split; [lra|]; done). exists (Rabs z). split; [by apply Rabs_pos_lt|].
  intros t Ht ->. replace (0 - z)%R with (- z)%R in Ht by lra. rewrite Rabs_Ropp in Ht. lra.
Qed.
(** the gradient of a sum of functions of one entry each *)
Lemma grad_pointwise n (F : list R -> R) (c : nat -> R) (h : nat -> R -> R) x k d dl : k < n -> n <= length x -> (0 < d)%R ->
  (forall t, (Rabs (t - el x k) < d)%R -> F (<[k := t]> x) = sumn n (fun i => c i * h i (el (<[k := t]> x) i))%R) ->
  derivable_pt_lim (h k) (el x k) dl -> has_partial F x k (c k * dl)%R.
Proof.
  intros Hk Hn Hd E Hh. unfold has_partial. eapply dlim_local; [exact Hd|exact E|].
  eapply dlim_val; [|apply (dlim_sumn n (fun i t => c i * h i (el (<[k := t]> x) i))%R _ (fun i => if decide (i = k) then c i * dl else 0)%R)].
  - by rewrite (sumn_delta n k (fun i => c i * dl)%R).
  - intros i Hi. destruct (decide (i = k)) as [->|Hne].
    + apply dlim_scal. eapply dlim_ext; [intros t; rewrite el_upd_eq by lia; reflexivity|exact Hh].
    + eapply dlim_ext; [intros t; rewrite el_upd_ne by done; reflexivity|apply dlim_const].
Qed.

Lemma forward2_run ac g def input1 input2 x : action x = ac -> elementwise2 ac g def -> length (output x) = output_size x ->
  (ac = ADDITION -> v_size x = output_size x) ->
  output_size x <= length input1 -> output_size x <= length input2 -> (forall i, i < output_size x -> def (el input1 i) (el input2 i)) ->
  exists o, ff_vector2 input1 input2 x = Some (with_output x o) /\ filled (output_size x) (fun i => g (el input1 i) (el input2 i)) (output x) o.
Proof.
  intros Ea He Ho Hs H1 H2 Hdef. unfold ff_vector2. rewrite Ea.
  assert (Hput : forall r, (exists o, r = Some o /\ filled (output_size x) (fun i => g (el input1 i) (el input2 i)) (output x) o) ->
    exists o, put_output x r = Some (with_output x o) /\ filled (output_size x) (fun i => g (el input1 i) (el input2 i)) (output x) o).
  { intros r (o & -> & Hf). exists o. split; done. }
  destruct He; pick; rewrite ?same_size_yes by auto; apply Hput; apply map2_filled; try lia; try done.
  intros i Hi. by rewrite decide_False by (by apply Hdef).
Qed.
(** both halves of the error *)
Lemma backward2_run ac g def input1 input2 x oe : action x = ac -> elementwise2 ac g def -> ac <> ADDITION ->
  output_size x <= length input1 -> output_size x <= length input2 -> output_size x <= length oe ->
  output_size x + output_size x <= length (input_error x) -> (forall i, i < output_size x -> def (el input1 i) (el input2 i)) ->
  exists ga gb e x', bp_vector2 input1 input2 x oe = Some (e, x') /\
    (forall a b, def a b -> derivable_pt_lim (fun a => g a b) a (ga a b) /\ derivable_pt_lim (g a) b (gb a b)) /\
    (forall i, i < output_size x -> el e i = (el oe i * ga (el input1 i) (el input2 i))%R /\
                                   el e (output_size x + i) = (el oe i * gb (el input1 i) (el input2 i))%R).
Proof.
  intros Ea He Hna H1 H2 Hoe Hie Hdef. unfold bp_vector2. rewrite Ea. destruct He; try done; pick.
  - exists (fun _ _ => 1%R), (fun _ _ => (-1)%R).
    destruct (loop_filled (output_size x) (fun i d => x ← rd oe (0 + i); wr d (0 + i) x) (el oe) (input_error x)) as (e1 & E1 & Hl1 & F1 & _); [lia| |].
    { intros i l Hi _ _. rewrite rd_el by lia. done. }
    unfold copy_array. rewrite E1. cbn [mbind option_bind].
    destruct (on_tail_filled (output_size x) (fun t => mul_value oe (-1)%R t (output_size x)) (fun i => el oe i * -1)%R e1) as (e2 & E2 & Hl2 & F2 & F2' & _); [lia| |].
    { apply (map_filled (fun z => z * -1)%R); [lia|]. rewrite drop_length. lia. }
    rewrite E2. exists e2. eexists. split; [done|]. split.
    + intros a b _. split; dlim; try done; lra.
    + intros i Hi. rewrite F2, F2', F1 by done. split; lra.
  - exists (fun _ b => b), (fun a _ => a).
    destruct (map2_filled (fun a b => Some (a * b)%R) Rmult oe input2 (input_error x) (output_size x)) as (e1 & E1 & Hl1 & F1 & _); [lia..|done|].
    unfold dot1D. rewrite E1. cbn [mbind option_bind].
    destruct (on_tail_filled (output_size x) (fun t => dot1D oe input1 t (output_size x)) (fun i => el oe i * el input1 i)%R e1) as (e2 & E2 & Hl2 & F2 & F2' & _); [lia| |].
    { apply (map2_filled _ Rmult); [lia..| |done]. rewrite drop_length. lia. }
    unfold dot1D in E2. rewrite E2. exists e2. eexists. split; [done|]. split.
    + intros a b _. split; dlim; try done; lra.
    + intros i Hi. rewrite F2, F2', F1 by done. split; lra.
  - exists (fun _ b => / b)%R, (fun a b => - (a / (b * b)))%R.
    destruct (map2_filled (fun a b => if decide (b = 0%R) then None else Some (a / b)%R) Rdiv oe input2 (input_error x) (output_size x)) as (e1 & E1 & Hl1 & F1 & _); [lia..| |].
    { intros i Hi. by rewrite decide_False by (by apply Hdef). }
    unfold div1D. rewrite E1. cbn [mbind option_bind].
    destruct (on_tail_filled (output_size x) (fun t => dot1D oe input1 t (output_size x)) (fun i => el oe i * el input1 i)%R e1) as (e2 & E2 & Hl2 & F2 & F2' & _); [lia| |].
    { apply (map2_filled _ Rmult); [lia..| |done]. rewrite drop_length. lia. }
    rewrite E2. cbn [mbind option_bind].
    destruct (on_tail_filled (output_size x) (div_inplace input2 (output_size x)) (fun i => el oe i * el input1 i / el input2 i)%R e2) as (e3 & E3 & Hl3 & F3 & F3' & _); [lia| |].
    { destruct (div_inplace_filled (drop (output_size x) e2) input2 (output_size x)) as (t & Et & Ht); [rewrite drop_length; lia|lia|exact Hdef|].
      exists t. split; [done|]. eapply filled_ext; [exact Ht|]. intros i Hi. cbn beta. by rewrite el_drop, F2'. }
    rewrite E3. cbn [mbind option_bind].
    destruct (on_tail_filled (output_size x) (div_inplace input2 (output_size x)) (fun i => el oe i * el input1 i / el input2 i / el input2 i)%R e3) as (e4 & E4 & Hl4 & F4 & F4' & _); [lia| |].
    { destruct (div_inplace_filled (drop (output_size x) e3) input2 (output_size x)) as (t & Et & Ht); [rewrite drop_length; lia|lia|exact Hdef|].
      exists t. split; [done|]. eapply filled_ext; [exact Ht|]. intros i Hi. cbn beta. by rewrite el_drop, F3'. }
    rewrite E4. cbn [mbind option_bind].
    destruct (on_tail_filled (output_size x) (mul_value_inplace (-1) (output_size x)) (fun i => el oe i * el input1 i / el input2 i / el input2 i * -1)%R e4) as (e5 & E5 & Hl5 & F5 & F5' & _); [lia| |].
    { destruct (mul_inplace_filled (-1)%R (drop (output_size x) e4) (output_size x)) as (t & Et & Ht); [rewrite drop_length; lia|].
      exists t. split; [done|]. eapply filled_ext; [exact Ht|]. intros i Hi. cbn beta. by rewrite el_drop, F4'. }
    rewrite E5. exists e5. eexists. split; [done|]. split.
    + intros a b Hb. split; dlim; try done; by field.
    + intros i Hi. pose proof (Hdef i Hi) as Hb. cbn beta in Hb. rewrite F5, F5', F4, F3, F2, F1 by done. split; by field.
Qed.
