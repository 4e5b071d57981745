(** C65: the flat vector of a network. *)
From Verif Require Import Base BaseLemmas Flat_Model Flat_Spec Flat_Proofs Flat2_Proofs Flat3_Proofs.
Open Scope nat_scope.

(** The number that the get_array_size functions return is the number of elements that the network
    occupies in a vector: the arrays of its layers, and for the derivatives the gaps. *)
Theorem the_size_is_the_number_of_elements {F} k (h : mem F) n :
  extent (entries k (layers n)) = size k n /\
  (gapless k -> allocated h (entries k (layers n)) ->
   length (flat h (entries k (layers n))) = size k n).
Proof.
  split; [apply extent_net|]. intros G A. rewrite flat_length; [apply extent_net|done|].
  intros e I. by eapply gapless_entries.
Qed.

(** Copying a network to a vector writes the arrays of its layers, in order, from the given
    position, and leaves the rest of the vector, and the gaps, as they were. *)
Theorem storing_writes_the_arrays_in_order {F} k (h : mem F) n at_ v :
  allocated h (entries k (layers n)) ->
  at_ + size k n <= length v ->
  store k h n at_ v = Some (take at_ v ++ image h (entries k (layers n)) (drop at_ v)) /\
  (gapless k ->
   store k h n at_ v =
   Some (take at_ v ++ flat h (entries k (layers n)) ++ drop (at_ + size k n) v)).
Proof.
  intros A L. rewrite <- extent_net in L |- *.
  assert (E : store k h n at_ v = Some (take at_ v ++ image h (entries k (layers n)) (drop at_ v)))
    by (by apply stores_net).
  split; [done|]. intros G. rewrite E. do 2 f_equal.
  rewrite image_flat; [by rewrite drop_drop|done| |rewrite drop_length; lia].
  intros e I. by eapply gapless_entries.
Qed.

(** Copying a vector to a network gives each of its arrays the elements at the place where that
    array would be written, and changes nothing else in the memory. *)
Theorem loading_reads_the_arrays_in_order {F} k (h : mem F) n at_ v :
  NoDup (addr <$> layers n) ->
  allocated h (entries k (layers n)) ->
  at_ + size k n <= length v ->
  exists h', load k v n at_ h = Some h' /\
    holds h' (entries k (layers n)) (drop at_ v) /\
    only_changes (entries k (layers n)) h h'.
Proof.
  intros N A L. rewrite <- extent_net in L. apply loads_net; [|done|done]. by apply nodup_entries.
Qed.

(** Copying a network to a vector and the vector to another network of the same shape, for example
    a copy of the first in another thread, gives the second the arrays of the first, and does not
    change the first. *)
Theorem storing_and_loading_copies_a_network {F} k (h : mem F) n n' at_ v :
  layout k <$> layers n = layout k <$> layers n' ->
  NoDup ((addr <$> layers n) ++ (addr <$> layers n')) ->
  allocated h (entries k (layers n)) -> allocated h (entries k (layers n')) ->
  at_ + size k n <= length v ->
  exists v' h', store k h n at_ v = Some v' /\ load k v' n' at_ h = Some h' /\
    (forall i l l' s m, layers n !! i = Some l -> layers n' !! i = Some l' ->
      (Some s, m) ∈ layout k l -> h' (addr l') s = h (addr l) s /\ h' (addr l) s = h (addr l) s) /\
    only_changes (entries k (layers n')) h h'.
Proof.
  intros S N A A' L. apply list.NoDup_app in N as (N & D & N').
  destruct (storing_writes_the_arrays_in_order k h n at_ v A L) as [E _].
  assert (EX : extent (entries k (layers n)) = extent (entries k (layers n'))).
  { clear -S. revert S. generalize (layers n), (layers n'). intros ls.
    induction ls as [|l ls IH]; intros [|l' ls'] S; try done.
    rewrite !fmap_cons in S. injection S as S1 S2.
    change (l :: ls) with ([l] ++ ls). change (l' :: ls') with ([l'] ++ ls').
    rewrite !entries_app, !extent_app, !entries_one, !extent_tag, S1. f_equal. by apply IH. }
  assert (SZ : size k n' = size k n) by (by rewrite <- !extent_net).
  set (v' := take at_ v ++ image h (entries k (layers n)) (drop at_ v)) in *.
  assert (Lt : length (take at_ v) = at_) by (rewrite take_length; lia).
  assert (Lv : length v' = length v).
  { unfold v'. rewrite app_length, Lt, image_length; [rewrite drop_length; lia|done|].
    rewrite extent_net, drop_length. lia. }
  destruct (loading_reads_the_arrays_in_order k h n' at_ v') as (h' & E' & H' & O');
    [done|done|lia|].
  exists v', h'. split_and!; [done|done| |done].
  assert (Dv : drop at_ v' = image h (entries k (layers n)) (drop at_ v))
    by (unfold v'; by apply drop_app_alt).
  rewrite Dv in H'.
  intros i l l' s m Li Li' I. split.
  - eapply holds_transfer; [exact S| |exact H'|done|done|done].
    apply holds_image; [done|]. rewrite extent_net, drop_length. lia.
  - apply O'. intros m' J. apply (D (addr l)).
    + apply elem_of_list_fmap. exists l. split; [done|]. by eapply elem_of_list_lookup_2.
    + eapply keys_addr, elem_keys. eauto.
Qed.

(** Copying a vector to a network and the network back gives the vector. *)
Theorem loading_and_storing_gives_the_vector_back {F} k (h : mem F) n at_ v :
  NoDup (addr <$> layers n) ->
  allocated h (entries k (layers n)) ->
  at_ + size k n <= length v ->
  exists h', load k v n at_ h = Some h' /\ store k h' n at_ v = Some v.
Proof.
  intros N A L. destruct (loading_reads_the_arrays_in_order k h n at_ v) as (h' & E & H & O); try done.
  exists h'. split; [done|].
  assert (A' : allocated h' (entries k (layers n))).
  { eapply holds_allocated; [exact H|]. rewrite extent_net, drop_length. lia. }
  destruct (storing_writes_the_arrays_in_order k h' n at_ v A' L) as [-> _].
  by rewrite image_holds, take_drop.
Qed.

(** get_array_size_scores_index_dueling_categorical_dqn gives, for a position of the score vector,
    the position where the layer that it belongs to ends; for a position past the end, the size of
    the whole vector. *)
Theorem the_index_of_a_score_is_the_end_of_its_layer d s :
  exists i, i <= length (layers_dueling d) /\
    get_array_size_scores_index d s = extent (entries ScoresOf (take i (layers_dueling d))) /\
    (forall j, j < i -> extent (entries ScoresOf (take j (layers_dueling d))) <= s) /\
    (s < size_dueling ScoresOf d -> s < get_array_size_scores_index d s) /\
    (size_dueling ScoresOf d <= s -> get_array_size_scores_index d s = size_dueling ScoresOf d).
Proof.
  destruct (seekl_spec s (layers_dueling d) 0) as (i & Hi & E & B & T & Z); [lia|].
  rewrite Nat.add_0_l in *. rewrite index_seekl, E.
  pose proof (extent_dueling ScoresOf d) as X. rewrite <- X.
  exists i. split_and!; try done. intros K. rewrite (Z K). by rewrite take_ge.
Qed.

(** A network of which an array is not allocated cannot be copied to or from a vector: the program
    copies through the NULL pointer.  This is every network made "without learning parameters". *)
Theorem a_network_without_its_arrays_cannot_be_copied {F} k (h : mem F) n l s m at_ v :
  k <> Derivs -> l ∈ layers n -> (Some s, m) ∈ layout k l -> h (addr l) s = None ->
  store k h n at_ v = None /\ load k v n at_ h = None.
Proof.
  intros K I J N. pose proof (elem_entries k _ _ _ _ I J) as E.
  split; [eapply store_null|eapply load_null]; try done; by left.
Qed.

(** set_model_training_edge_popup does not allocate scores: after it a network that was trained with
    gradient descent has a score vector of positive size, and copying it is undefined. *)
Theorem switching_to_edge_popup_gives_scores_refuted {F} (h : mem F) m f at_ v :
  f ∈ m_fcls m -> h (f_at f) (Val Scores) = None ->
  let n := OfModel (set_model_training_edge_popup m) in
  f_in f * f_out f <= size ScoresOf n /\
  store ScoresOf h n at_ v = None /\ load ScoresOf v n at_ h = None.
Proof.
  intros I N n.
  assert (I' : Dense (edge_fcl f) ∈ layers n).
  { cbn. unfold layers_model. rewrite elem_of_app. left. cbn.
    apply elem_of_list_fmap. exists (edge_fcl f). split; [done|].
    apply elem_of_list_fmap. eauto. }
  assert (J : (Some (Val Scores), f_in f * f_out f) ∈ layout ScoresOf (Dense (edge_fcl f))).
  { cbn [layout edge_fcl f_ff f_tr f_in f_out]. rewrite decide_False by done.
    rewrite decide_True by (by left). left. }
  split.
  - rewrite <- extent_net. apply elem_of_list_split in I' as (l1 & l2 & ->).
    change (Dense (edge_fcl f) :: l2) with ([Dense (edge_fcl f)] ++ l2).
    rewrite !entries_app, !extent_app, entries_one, extent_tag. cbn [layout edge_fcl f_ff f_tr].
    rewrite decide_False by done. rewrite decide_True by (by left). unfold total. cbn. lia.
  - by eapply (a_network_without_its_arrays_cannot_be_copied ScoresOf h n (Dense (edge_fcl f))).
Qed.

(** set_model_training_gd does not allocate derivatives: after it a network that was trained with
    edge-popup has a vector of derivatives that cannot be copied. *)
Theorem switching_to_gradient_descent_gives_derivatives_refuted {F} (h : mem F) m f at_ v :
  f ∈ m_fcls m -> f_ff f <> OnlyDropout -> h (f_at f) (Grad Weights) = None ->
  let n := OfModel (set_model_training_gd m) in
  store Derivs h n at_ v = None /\ load Derivs v n at_ h = None.
Proof.
  intros I FF N n.
  assert (I' : Dense (gd_fcl f) ∈ layers n).
  { cbn. unfold layers_model. rewrite elem_of_app. left. cbn.
    apply elem_of_list_fmap. exists (gd_fcl f). split; [done|].
    apply elem_of_list_fmap. eauto. }
  assert (J : (Some (Grad Weights), f_in f * f_out f) ∈ layout Derivs (Dense (gd_fcl f))).
  { cbn [layout gd_fcl f_ff f_tr f_in f_out]. rewrite decide_False by done.
    rewrite decide_True by done. left. }
  pose proof (elem_entries Derivs _ _ _ _ I' J) as E.
  split; [eapply store_null|eapply load_null]; try done; by right.
Qed.

(** The scores of a recurrent network have a size even when it is not trained with edge-popup and
    has none: copying them is undefined. *)
Theorem the_scores_of_a_recurrent_network_refuted {F} (h : mem F) z l at_ v :
  l ∈ rm_lstms (z_rmodel z) -> h (l_at l) (Val (ScoresW 0)) = None ->
  4 * (l_in l * l_out l + l_out l * l_out l) <= size ScoresOf (OfZero z) /\
  store ScoresOf h (OfZero z) at_ v = None /\ load ScoresOf v (OfZero z) at_ h = None.
Proof.
  intros I N.
  assert (I' : Lstmc l ∈ layers (OfZero z)).
  { cbn. unfold layers_zero, layers_rmodel. rewrite !elem_of_app. do 9 right.
    apply elem_of_list_fmap. eauto. }
  split.
  - rewrite <- extent_net. apply elem_of_list_split in I' as (l1 & l2 & ->).
    change (Lstmc l :: l2) with ([Lstmc l] ++ l2).
    rewrite !entries_app, !extent_app, extent_lstm. cbn [size_lstm]. lia.
  - eapply (a_network_without_its_arrays_cannot_be_copied ScoresOf h (OfZero z) (Lstmc l)); try done.
    cbn. left.
Qed.

(** The vector of derivatives of a network trained with edge-popup is not written at all, although
    its size is that of the parameters: the vector keeps what it held. *)
Theorem the_derivatives_of_an_edge_popup_network_are_stale {F} (h : mem F) m at_ v :
  let n := OfModel (set_model_training_edge_popup m) in
  at_ + size Derivs n <= length v ->
  store Derivs h n at_ v = Some v /\ size Derivs n = size Params n.
Proof.
  intros n L.
  assert (G : forall e, e ∈ entries Derivs (layers n) -> fst (snd e) = None).
  { intros e I. unfold entries in I. apply elem_of_list_bind in I as (l & I & J).
    apply elem_of_list_fmap in I as (p & -> & I). cbn [snd].
    assert (K : (exists f, l = Dense (edge_fcl f)) \/ (exists c, l = Conv (edge_cl c))).
    { cbn [n layers] in J. unfold layers_model in J.
      rewrite !elem_of_app, elem_of_list_bind, !elem_of_list_fmap in J.
      destruct J as [(x & -> & X)|[(x & -> & X)|(x & X & Y)]].
      - apply elem_of_list_fmap in X as (y & -> & _). eauto.
      - apply elem_of_list_fmap in X as (y & -> & _). eauto.
      - apply elem_of_list_fmap in Y as (y & -> & _). apply elem_of_list_fmap in X as (w & -> & X).
        apply elem_of_list_fmap in X as (u & -> & _). eauto. }
    destruct K as [(f & ->)|(c & ->)]; cbn [layout] in I.
    - rewrite decide_False in I by done. rewrite decide_False in I by (intros [X _]; done).
      by apply elem_of_list_singleton in I as ->.
    - destruct (c_conv (edge_cl c)); [|by apply elem_of_nil in I].
      rewrite decide_False in I by (intros [X _]; done).
      by apply elem_of_list_singleton in I as ->. }
  split; [|done].
  assert (A : allocated h (entries Derivs (layers n))).
  { intros a s m' I. by apply G in I. }
  destruct (storing_writes_the_arrays_in_order Derivs h n at_ v A L) as [-> _].
  f_equal. rewrite <- (take_drop at_ v) at 3. f_equal. clear L A. generalize (drop at_ v).
  induction (entries Derivs (layers n)) as [|[a [[s|] m']] es IH]; intros w; [done| |].
  - specialize (G (a, (Some s, m'))). cbn in G. by discriminate G; left.
  - cbn [image]. rewrite IH, take_drop; [done|]. intros e I. apply G. by right.
Qed.

(** ** A network: one noisy dense layer with layer normalization, one convolutional layer with two
    groups, and a recurrent part *)
Definition ex_f (a : nat) : fcl := Fcl a 2 1 true EdgeFF EdgePopup true 1.
Definition ex_c (a : nat) : cl := Cl a 2 1 1 2 true FullyFF GradientDescent true 1 1.
Definition ex_l (a : nat) : lstm := Lstm a 1 1 true 2 1 1.
Definition ex_m (a : nat) : model := Model [ex_f a] [ex_c (a + 1)] [Rl [ex_c (a + 2)]].
Definition ex_z (a : nat) : zero :=
  Zero None None (ex_m a) (ex_m (a + 3)) (ex_m (a + 6)) (ex_m (a + 9)) (ex_m (a + 12))
    (ex_m (a + 15)) (ex_m (a + 18)) (Rmodel [ex_l (a + 21); ex_l (a + 22)]).

(** a memory where every array of the network is allocated: the elements tell where they are *)
Definition code (s : slot) : nat :=
  match s with
  | Val Weights => 10 | Val NoisyWeights => 11 | Val Biases => 12 | Val NoisyBiases => 13
  | Val (Kernel i) => 20 + i | Val (Gamma i) => 30 + i | Val (Beta i) => 40 + i
  | Val (GateW i) => 50 + i | Val (GateU i) => 60 + i | Val (GateB i) => 70 + i
  | Val Scores => 80 | _ => 90
  end.
Definition ex_h (k : kind) (n : net) : mem Z := fun a s =>
  match filter (fun e => fst e = a /\ fst (snd e) = Some s) (entries k (layers n)) with
  | (_, (_, m)) :: _ => Some (imap (fun i _ => (1000 * Z.of_nat a + 10 * Z.of_nat (code s) + Z.of_nat i)%Z) (replicate m 0))
  | [] => None
  end.

Example ex_distinct : NoDup ((addr <$> layers (OfZero (ex_z 0))) ++ (addr <$> layers (OfZero (ex_z 30)))).
Proof. apply (bool_decide_unpack _). vm_compute. exact I. Qed.

Lemma allocated_check {F} (h : mem F) es :
  forallb (fun e => match e with
    | (a, (Some s, m)) => match h a s with Some l => length l =? m | None => false end
    | _ => true end) es = true -> allocated h es.
Proof.
  intros H a s n I. apply elem_of_list_In in I. rewrite forallb_forall in H.
  specialize (H _ I). cbn in H. destruct (h a s) as [l|]; [|done].
  exists l. split; [done|]. by apply Nat.eqb_eq.
Qed.

Example ex_allocated :
  allocated (ex_h Params (OfModel (ex_m 0))) (entries Params (layers (OfModel (ex_m 0)))) /\
  allocated (ex_h Params (OfZero (ex_z 0))) (entries Params (layers (OfZero (ex_z 0)))).
Proof. split; apply allocated_check; vm_compute; done. Qed.

Example ex_flat :
  store Params (ex_h Params (OfModel (ex_m 0))) (OfModel (ex_m 0)) 1 (replicate 32 7%Z) =
  Some ([7; 100; 101; 110; 111; 120; 130; 300; 400;
         1200; 1201; 1210; 1211; 1120; 1121; 1300; 1310; 1400; 1410;
         2200; 2201; 2210; 2211; 2120; 2121; 2300; 2310; 2400; 2410] ++ [7; 7; 7])%Z /\
  size Params (OfModel (ex_m 0)) = 28.
Proof. vm_compute. done. Qed.

Example ex_zero_size :
  size Params (OfZero (ex_z 0)) = 7 * 28 + 2 * 16 /\
  is_Some (store Params (ex_h Params (OfZero (ex_z 0))) (OfZero (ex_z 0)) 0 (replicate 228 7%Z)).
Proof. vm_compute. eauto. Qed.

(** the score vector of a dueling network with dense layers of 2, 6 and 3 scores *)
Definition ex_d : dueling :=
  let m f := Model [f] [] [] in
  let e a i o := Fcl a i o false EdgeFF EdgePopup false 0 in
  Dueling (m (e 0 2 1)) (m (Fcl 1 5 5 false FullyFF GradientDescent false 0)) (m (e 2 3 2))
    (Model [] [] []) (m (e 3 3 1)).
Example ex_index :
  get_array_size_scores_index ex_d <$> [0; 1; 2; 7; 8; 10; 11; 99] = [2; 2; 8; 8; 11; 11; 11; 11].
Proof. vm_compute. done. Qed.

Print Assumptions the_size_is_the_number_of_elements.
Print Assumptions storing_writes_the_arrays_in_order.
Print Assumptions loading_reads_the_arrays_in_order.
Print Assumptions storing_and_loading_copies_a_network.
Print Assumptions loading_and_storing_gives_the_vector_back.
Print Assumptions the_index_of_a_score_is_the_end_of_its_layer.
Print Assumptions a_network_without_its_arrays_cannot_be_copied.
Print Assumptions switching_to_edge_popup_gives_scores_refuted.
Print Assumptions switching_to_gradient_descent_gives_derivatives_refuted.
Print Assumptions the_scores_of_a_recurrent_network_refuted.
Print Assumptions the_derivatives_of_an_edge_popup_network_are_stale.
