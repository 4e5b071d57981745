(** Proofs about resetting a fully-connected layer *)
From Verif Require Import NumLib BaseLemmas Fn_Model Fn_Proofs Sort_Props Life_Model Life_Spec Life_Proofs.
From Verif Require Sort_Model.
From Coq Require Import Reals Lia Lra.
Notation vec := (list R).
Open Scope nat_scope.

Lemma paste_bn_short b1 b2 : bn_shaped b1 -> bn_shaped b2 -> vdim b2 < vdim b1 -> paste_bn b1 b2 = None.
Proof.
  intros (_ & _ & H1) (_ & _ & H2) Hv. destruct (H1 Gamma) as (x & Ex & Lx). destruct (H2 Gamma) as (y & Ey & Ly). unfold paste_bn, paste_bn_steps. cbn [map copies].
  assert (copy_step (b_arr b1) (Cp true Gamma (vdim b1)) (b_arr b2) = None) as ->; [|done]. unfold copy_step. cbn [c_on c_key c_cnt negb]. rewrite Ex, Ey, decide_False by lia. done.
Qed.
Lemma paste_groups f cp : feed_forward_flag (cfg f) <> Only_dropout -> feed_forward_flag (cfg cp) <> Only_dropout -> shaped f -> shaped cp ->
  input (cfg f) = input (cfg cp) -> output (cfg f) = output (cfg cp) -> normalization_flag (cfg f) = Layer_norm -> normalization_flag (cfg cp) = Layer_norm ->
  output (cfg cp) / n_groups (cfg cp) < output (cfg f) / n_groups (cfg f) -> paste_fcl f cp = None.
Proof.
  intros F1 F2 S1 S2 Ei Eo e1 e2 Hlt. unfold paste_fcl. rewrite (decide_False (P := output (cfg f) <> output (cfg cp))) by tauto. rewrite (decide_False (P := _ <> _)) by (rewrite Ei, Eo; lia).
  rewrite (decide_True (P := _ /\ _)) by done. cbv zeta.
  pose proof (shaped_usable f S1) as (_ & _ & _ & Hl1). pose proof (shaped_usable cp S2) as (_ & _ & _ & Hl2). destruct (Hl1 e1) as (b1 & -> & Hb1 & B1 & V1). destruct (Hl2 e2) as (b2 & -> & Hb2 & B2 & V2).
  rewrite paste_bn_short by (done || lia). cbn [mbind option_bind].
  match goal with |- (copies ?a ?b ?c ≫= _) = None => destruct (copies a b c) end; [|done]. cbn [mbind option_bind].
  match goal with |- (?x ≫= _) = None => destruct x end; [|done]. cbn [mbind option_bind]. match goal with |- (?x ≫= _) = None => destruct x end; done.
Qed.
(** pasting the parameters alone *)
Lemma paste_w_short f cp v w : feed_forward_flag (cfg f) <> Only_dropout -> arr f Weights = Some v -> arr cp Weights = Some w -> length w < output (cfg f) * input (cfg f) -> paste_w_fcl f cp = None.
Proof.
  intros F1 Ev Ew Hl. unfold paste_w_fcl. rewrite exists_p by done. unfold param_steps. cbn [app copies]. 
  assert (copy_step (arr f) (Cp true Weights (output (cfg f) * input (cfg f))) (arr cp) = None) as ->; [|done]. unfold copy_step. cbn [c_on c_key c_cnt negb]. rewrite Ev, Ew, decide_False by lia. done.
Qed.
Lemma paste_w_gen f cp : feed_forward_flag (cfg f) <> Only_dropout -> shaped f -> shaped cp ->
  input (cfg f) = input (cfg cp) -> output (cfg f) = output (cfg cp) -> (normalization_flag (cfg f) = Layer_norm -> normalization_flag (cfg cp) = Layer_norm -> n_groups (cfg f) = n_groups (cfg cp)) ->
  ∃ r, paste_w_fcl f cp = Some r /\ cfg r = cfg cp /\ k_percentage r = k_percentage cp /\
    (∀ k, parameter k -> has (cfg f) k -> has (cfg cp) k -> arr r k = arr f k) /\ (∀ k, ~ (parameter k /\ has (cfg f) k /\ has (cfg cp) k) -> arr r k = arr cp k) /\
    (has (cfg f) Scores -> active r = active f /\ (has (cfg cp) Scores -> indices r = indices f)) /\ (~ has (cfg f) Scores -> active r = active cp) /\ (~ (has (cfg f) Scores /\ has (cfg cp) Scores) -> indices r = indices cp) /\
    (normalization_flag (cfg f) = Layer_norm -> normalization_flag (cfg cp) = Layer_norm ->
       ∃ b b2 b', layer_norm f = Some b /\ layer_norm cp = Some b2 /\ layer_norm r = Some b' /\ b_arr b' Gamma = b_arr b Gamma /\ b_arr b' Beta = b_arr b Beta /\ (∀ k, k <> Gamma -> k <> Beta -> b_arr b' k = b_arr b2 k)) /\
    (~ (normalization_flag (cfg f) = Layer_norm /\ normalization_flag (cfg cp) = Layer_norm) -> layer_norm r = layer_norm cp).
Proof.
  intros F1 S1 S2 Ei Eo Eg. unfold paste_w_fcl. rewrite exists_p by done. cbv zeta. set (c := cfg f) in *. set (c2 := cfg cp) in *.
  pose proof (shaped_fits f S1) as Hf1. fold c in Hf1. pose proof (shaped_fits cp S2) as Hf2. fold c2 in Hf2.
  assert (Hf2' : fits (arr cp) (fsize c)) by (intros k v E; rewrite (fsize_same c c2) by done; by apply Hf2).
  set (st := param_steps c (noisy c && noisy c2) ++ [Cp (exists_edge_popup_stuff c) Scores (output c * input c)]).
  destruct (copies_ok (fsize c) st (arr f) (arr cp)) as (d & -> & Hd); [unfold st, param_steps; repeat constructor; cbn; lia|done|done|]. cbn [mbind option_bind].
  assert (Hst : ∀ k, copied st k = match k with Weights | Biases => true | Noisy_weights | Noisy_biases => noisy c && noisy c2 | Scores => bool_decide (has c Scores) | _ => false end).
  { intros k. unfold st. rewrite exists_e by done. unfold param_steps, copied. destruct (bool_decide (has c Scores)), (noisy c), (noisy c2), k as [ | | | |[]|[]|[]|[]| |[]| | | | | | | | | | | | | ]; reflexivity. }
  clearbody st.
  pose proof (shaped_usable f S1) as (_ & (al & Ha & La) & Hi1 & Hl1). fold c in La, Hi1, Hl1. pose proof (shaped_usable cp S2) as (_ & (al2 & Ha2 & La2) & Hi2 & Hl2). fold c2 in La2, Hi2, Hl2.
  rewrite exists_e by done.
  assert (Hind : ∃ ind, (if bool_decide (has c Scores) then copy_ints (output c * input c) (indices f) (indices cp) else Some (indices cp)) = Some ind /\
     (has c Scores -> has c2 Scores -> ind = indices f) /\ (~ (has c Scores /\ has c2 Scores) -> ind = indices cp)).
  { case_bool_decide as h1.
    - rewrite copy_ints_ok by (intros l El; rewrite Nat.mul_comm; rewrite ?Ei, ?Eo; (apply Hi2; done) || (rewrite <- ?Ei, <- ?Eo; by apply Hi1)).
      destruct S1 as (_ & _ & _ & X1 & _). destruct S2 as (_ & _ & _ & X2 & X3 & _). destruct (X1 h1) as (l1 & -> & _). fold c2 in X2, X3. destruct (decide (has c2 Scores)) as [h2|h2].
      + destruct (X2 h2) as (l2 & -> & _). eexists. split; [done|]. split; [done|]. tauto.
      + rewrite X3 by done. eexists. split; [done|]. split; [done|]. done.
    - eexists. split; [done|]. split; [tauto|done]. }
  destruct Hind as (ind & -> & Hn1 & Hn2). cbn [mbind option_bind].
  assert (Hact : ∃ ac, (if bool_decide (has c Scores) then copy_ints (output c) (active f) (active cp) else Some (active cp)) = Some ac /\ (has c Scores -> ac = active f) /\ (~ has c Scores -> ac = active cp)).
  { case_bool_decide as h1; [|by eexists]. rewrite (copy_ints_ok (output c)); [|intros l El; congruence|intros l El; congruence]. rewrite Ha, Ha2. eexists. split; [done|]. split; [done|tauto]. }
  destruct Hact as (ac & -> & Ha1 & Ha3). cbn [mbind option_bind].
  assert (Hln : ∃ ln, (if decide (normalization_flag c = Layer_norm) then match layer_norm f, layer_norm cp with Some b1, Some b2 => b ← paste_w_bn b1 b2; Some (Some b) | _, _ => Some (layer_norm cp) end else Some (layer_norm cp)) = Some ln /\
    (normalization_flag c = Layer_norm -> normalization_flag c2 = Layer_norm ->
       ∃ b b2 b', layer_norm f = Some b /\ layer_norm cp = Some b2 /\ ln = Some b' /\ b_arr b' Gamma = b_arr b Gamma /\ b_arr b' Beta = b_arr b Beta /\ (∀ k, k <> Gamma -> k <> Beta -> b_arr b' k = b_arr b2 k)) /\
    (~ (normalization_flag c = Layer_norm /\ normalization_flag c2 = Layer_norm) -> ln = layer_norm cp)).
  { destruct (decide (normalization_flag c = Layer_norm)) as [e1|e1]; [|eexists; split; [done|]; split; [tauto|done]].
    destruct (Hl1 e1) as (b1 & -> & Hb1 & B1 & V1). destruct (decide (normalization_flag c2 = Layer_norm)) as [e2|e2].
    - destruct (Hl2 e2) as (b2 & -> & Hb2 & B2 & V2). destruct (paste_w_bn_ok b1 b2 Hb1 Hb2) as (b & -> & _ & _ & _ & G & B & Kn); [rewrite V1, V2, Eo, Eg by done; done|].
      cbn. eexists. split; [done|]. split; [|tauto]. intros _ _. exists b1, b2, b. done.
    - destruct S2 as (_ & _ & _ & _ & _ & _ & X). fold c2 in X. rewrite X by done. eexists. split; [done|]. split; [tauto|done]. }
  destruct Hln as (ln & -> & Hn3 & Hn4). cbn [mbind option_bind].
  eexists. split; [done|]. cbn [cfg k_percentage arr active indices layer_norm]. split; [done|]. split; [done|]. split; [|split; [|split; [|split; [done|split; [done|split; [done|done]]]]]].
  - intros k Hk h1 h2. rewrite Hd. destruct S1 as (X1 & _). destruct S2 as (X2 & _). destruct (X1 k h1) as (v & -> & _). destruct (X2 k h2) as (w & -> & _).
    rewrite Hst. destruct k; try destruct Hk; cbn [has] in h1, h2; fold c c2 in h1, h2; rewrite ?h1, ?h2; try done. by rewrite bool_decide_eq_true_2.
  - intros k Hk. rewrite Hd. destruct (decide (has c k)) as [h1|h1]; [|destruct S1 as (_ & X & _); rewrite X by done; done]. destruct (arr f k); [|done].
    destruct (decide (has c2 k)) as [h2|h2]; [|destruct S2 as (_ & X & _); rewrite X by done; done]. destruct (arr cp k); [|done].
    rewrite Hst. destruct k; try done; exfalso; apply Hk; (split; [done|done]).
  - intros h1. split; [by apply Ha1|]. intros h2. by apply Hn1.
Qed.

(** new noise *)
Definition noise_fld (k : fld) : Prop := match k with Noise | Noise_biases => True | _ => False end.
Definition fresh_noise (c : config) (g : nat -> R) (v b : vec) : Prop :=
  (∀ j, j < output c -> el b j = factorised (g (S j))) /\ (∀ i j, i < input c -> j < output c -> el v (j * input c + i) = (factorised (g (column (output c) i)) * factorised (g (S j)))%R).
Definition noise_steps (c : config) : list (fstep fld) := [Fl (noisy c) false Temp_weights (input c * output c) 0%R; Fl (noisy c) false Temp_biases (output c) 0%R].
Lemma renew_ok c g gd a : 1 <= input c -> fits a (fsize c) -> (noisy c = true -> ∀ k, k = Noise \/ k = Noise_biases \/ k = Temp_weights \/ k = Temp_biases -> a k <> None) ->
  ∃ a', renew_noise c g gd a = Some a' /\ fits a' (fsize c) /\ (∀ k, a' k = None <-> a k = None) /\ (∀ k, ~ noise_fld k -> a' k = after_fill (noise_steps c) (fsize c) a k) /\
    (noisy c = false -> a' = a) /\ (noisy c = true -> ∃ v b, a' Noise = Some v /\ a' Noise_biases = Some b /\ fresh_noise c g v b).
Proof.
  intros Hi Hf Hn. unfold renew_noise, noise_steps. destruct (noisy c) eqn:En.
  2: { exists a. split; [done|]. split; [done|]. split; [done|]. split; [|done]. intros k _. unfold after_fill. cbn [filled f_on andb]. by destruct (a k). }
  specialize (Hn eq_refl). destruct (a Noise) as [v|] eqn:Ev; [|destruct (Hn Noise); tauto]. destruct (a Noise_biases) as [b|] eqn:Eb; [|destruct (Hn Noise_biases); tauto].
  destruct (noise_ok g (input c) (output c) v b Hi) as (cc & v' & b' & -> & Lv & Lb & Hb & Hv); [by rewrite (Hf _ _ Ev)|by rewrite (Hf _ _ Eb)|]. cbn [mbind option_bind].
  set (a1 := put (put a Noise v') Noise_biases b').
  assert (H1 : ∀ k, a1 k = if decide (k = Noise_biases) then Some b' else if decide (k = Noise) then Some v' else a k) by done.
  destruct (fills_ok (fsize c) [Fl true false Temp_weights (input c * output c) 0%R; Fl true false Temp_biases (output c) 0%R] a1) as (a' & -> & Hf' & Hk).
  { by repeat constructor. }
  { intros k x. rewrite H1. destruct (decide (k = Noise_biases)) as [->|]; [intros [= <-]; done|]. destruct (decide (k = Noise)) as [->|]; [intros [= <-]; rewrite Lv; apply (Hf _ _ Ev)|apply Hf]. }
  { repeat constructor; intros _ _; rewrite H1; cbn [f_key]; rewrite !decide_False by done; apply Hn; tauto. }
  exists a'. split; [done|]. split; [done|]. split; [|split; [|split; [done|intros _]]].
  - intros k. rewrite Hk. unfold after_fill. rewrite H1. destruct (decide (k = Noise_biases)) as [->|]; [by rewrite Eb|]. destruct (decide (k = Noise)) as [->|]; [by rewrite Ev|]. by destruct (a k).
  - intros k Hk'. rewrite Hk. unfold after_fill. rewrite H1. rewrite !decide_False by (intros ->; apply Hk'; done). done.
  - exists v', b'. rewrite !Hk. unfold after_fill. rewrite !H1. cbn. split; [done|]. split; [done|]. done.
Qed.
(** fills, then new noise, then fills *)
Lemma after_after (l1 l2 : list (fstep fld)) sz (a a1 : arrays fld) k : a1 k = after_fill l1 sz a k -> after_fill l2 sz a1 k = after_fill (l1 ++ l2) sz a k.
Proof. intros E. unfold after_fill in *. rewrite E, filled_app. destruct (a k); [|done]. destruct (filled l2 k); done. Qed.
Definition step_ok (c : config) (s : fstep fld) : Prop := f_cnt s = fsize c (f_key s) /\ (f_on s = true -> f_guarded s = false -> has c (f_key s)) /\ ~ noise_fld (f_key s).
Lemma core_ok c L1 L2 g gd (a : arrays fld) : 1 <= input c -> fits a (fsize c) -> (∀ k, has c k -> a k <> None) -> Forall (step_ok c) L1 -> Forall (step_ok c) L2 ->
  ∃ a1 a2 a3, fills L1 a = Some a1 /\ renew_noise c g gd a1 = Some a2 /\ fills L2 a2 = Some a3 /\ fits a3 (fsize c) /\ (∀ k, a3 k = None <-> a k = None) /\
    (∀ k, ~ noise_fld k -> a3 k = after_fill (L1 ++ noise_steps c ++ L2) (fsize c) a k) /\
    (noisy c = true -> ∃ v b, a3 Noise = Some v /\ a3 Noise_biases = Some b /\ fresh_noise c g v b).
Proof.
  intros Hi Hf Hh H1 H2.
  destruct (fills_ok (fsize c) L1 a) as (a1 & E1 & Hf1 & Hk1); [by eapply list.Forall_impl; [exact H1|intros ? (? & _)]|done| |].
  { eapply list.Forall_impl; [exact H1|]. intros s (_ & Hs & _) Ho Hg. apply Hh, Hs; done. }
  assert (N1 : ∀ k, a1 k = None <-> a k = None) by (intros k; rewrite Hk1; unfold after_fill; by destruct (a k)).
  destruct (renew_ok c g gd a1 Hi Hf1) as (a2 & E2 & Hf2 & N2 & Hk2 & _ & Hz).
  { intros Hn k Hk. rewrite N1. apply Hh. destruct Hk as [->|[->|[->| ->]]]; done. }
  destruct (fills_ok (fsize c) L2 a2) as (a3 & E3 & Hf3 & Hk3); [by eapply list.Forall_impl; [exact H2|intros ? (? & _)]|done| |].
  { eapply list.Forall_impl; [exact H2|]. intros s (_ & Hs & _) Ho Hg. rewrite N2, N1. apply Hh, Hs; done. }
  assert (N3 : ∀ k, a3 k = None <-> a2 k = None) by (intros k; rewrite Hk3; unfold after_fill; by destruct (a2 k)).
  exists a1, a2, a3. split; [done|]. split; [done|]. split; [done|]. split; [done|]. split; [intros k; by rewrite N3, N2, N1|]. split.
  - intros k Hk. rewrite Hk3. rewrite (after_after (L1 ++ noise_steps c) L2 _ a); [by rewrite <- app_assoc|]. rewrite Hk2 by done. by apply after_after.
  - intros Hn. destruct (Hz Hn) as (v & b & Ev & Eb & Hfr). exists v, b. rewrite !Hk3. unfold after_fill. rewrite Ev, Eb.
    rewrite !filled_none; [done| |]; (eapply list.Forall_impl; [exact H2|]); intros s (_ & _ & Hs) Ek; apply Hs; rewrite Ek; done.
Qed.
Section filled.
  Context (c : config) (Hff : feed_forward_flag c <> Only_dropout) (gd : bool).
  Lemma exists_act : exists_activation c = activation c.
  Proof using Hff. unfold exists_activation. rewrite bool_decide_eq_true_2 by done. apply andb_true_r. Qed.
  Lemma exists_nrm : exists_normalization c = bool_decide (has c Post_normalization).
  Proof using Hff. unfold exists_normalization. apply bool_decide_ext. cbn. tauto. Qed.
  Lemma exists_drp : exists_dropout_stuff c = bool_decide (has c Dropout_mask).
  Proof using. done. Qed.
  Lemma ff_step_ok : Forall (step_ok c) (ff_fills c gd 1%R).
  Proof using Hff. unfold ff_fills. rewrite exists_p, exists_act, exists_nrm, exists_drp by done. repeat (apply list.Forall_cons; split); [..|by apply list.Forall_nil]; (split; [done|]); (split; [|cbn; tauto]); cbn; intros H _; done || by apply bool_decide_eq_true in H. Qed.
  Lemma temp_step_ok : Forall (step_ok c) (temp_fills c).
  Proof using. unfold temp_fills. repeat (apply list.Forall_cons; split); [..|by apply list.Forall_nil]; (split; [done|]); (split; [done|cbn; tauto]). Qed.
  Lemma d_step_ok : Forall (step_ok c) (d_fills c).
  Proof using Hff. unfold d_fills. rewrite exists_d by done. repeat (apply list.Forall_cons; split); [..|by apply list.Forall_nil]; (split; [done|]); (split; [|cbn; tauto]); intros H _; cbn [f_on f_key] in *; cbn [has]; first [apply andb_true_iff in H; destruct H as [H H2]; apply bool_decide_eq_true in H; done|by apply bool_decide_eq_true in H]. Qed.
  Lemma db_step_ok : Forall (step_ok c) [Fl (exists_d_params c) false (DBiases o0) (output c) 0%R].
  Proof using Hff. rewrite exists_d by done. apply list.Forall_cons. split; [|by apply list.Forall_nil]. split; [done|]. split; [|cbn; tauto]. cbn [f_on f_key]. intros H _. by apply bool_decide_eq_true in H. Qed.
  (** what the fills write *)
  Lemma filled_reset_gen (p ac nr dr ns : bool) k :
    filled ([Fl p false Pre_activation (output c) 0%R; Fl ac false Post_activation (output c) 0%R; Fl nr false Post_normalization (output c) 0%R;
       Fl dr gd Dropout_mask (output c) 1%R; Fl dr gd Dropout_temp (output c) 1%R] ++
       [Fl ns false Temp_weights (input c * output c) 0%R; Fl ns false Temp_biases (output c) 0%R]) k =
    match k with Pre_activation => if p then Some 0%R else None | Post_activation => if ac then Some 0%R else None | Post_normalization => if nr then Some 0%R else None
    | Dropout_mask | Dropout_temp => if dr then Some 1%R else None | Temp_weights | Temp_biases => if ns then Some 0%R else None | _ => None end.
  Proof using. destruct k as [ | | | |[]|[]|[]|[]| |[]| | | | | | | | | | | | | ], p, ac, nr, dr, ns; reflexivity. Qed.
  Lemma filled_temp k : filled (temp_fills c) k = match k with Temp | Temp2 | Temp3 | Error2 => Some 0%R | _ => None end.
  Proof using. destruct k as [ | | | |[]|[]|[]|[]| |[]| | | | | | | | | | | | | ]; reflexivity. Qed.
  Lemma filled_d k : filled (Fl (exists_d_params c) false (DBiases o0) (output c) 0%R :: d_fills c) k =
    match k with DWeights o0 | DBiases o0 => if exists_d_params c then Some 0%R else None | DNoisy_weights o0 | DNoisy_biases o0 => if exists_d_params c && noisy c then Some 0%R else None | _ => None end.
  Proof using. unfold d_fills. destruct (exists_d_params c), (noisy c), k as [ | | | |[]|[]|[]|[]| |[]| | | | | | | | | | | | | ]; reflexivity. Qed.
  Lemma filled_ff k : filled (ff_fills c gd 1%R ++ noise_steps c) k =
    match k with Pre_activation => Some 0%R | Post_activation => if activation c then Some 0%R else None | Post_normalization => if bool_decide (has c k) then Some 0%R else None
    | Dropout_mask | Dropout_temp => if bool_decide (has c k) then Some 1%R else None | Temp_weights | Temp_biases => if noisy c then Some 0%R else None | _ => None end.
  Proof using Hff. unfold ff_fills, noise_steps. rewrite filled_reset_gen. rewrite exists_p, exists_act, exists_nrm, exists_drp by done. destruct k; done. Qed.
End filled.
(** the used outputs of edge popup *)
Lemma zeros_lookup n : ∀ o, o < n -> repeat 0 n !! o = Some 0.
Proof. induction n as [|n IH]; intros o Ho; [lia|]. destruct o; [done|]. apply IH. lia. Qed.
Lemma used_ok c k ind : 0 < input c -> ind ≡ₚ seq 0 (input c * output c) ->
  ∃ act, get_used_outputs c k ind = Some act /\ length act = output c /\
    ∀ o, o < output c -> (act !! o = Some 1 /\ chosen c k ind o) \/ (act !! o = Some 0 /\ ~ chosen c k ind o).
Proof.
  intros Hi Hp. unfold get_used_outputs, chosen. set (n := input c * output c) in *. set (st := Z.to_nat _). pose proof (Permutation_length Hp) as Hl. rewrite seq_length in Hl.
  assert (Hx : ∀ i x, ind !! i = Some x -> x < n). { intros i x E. apply elem_of_list_lookup_2 in E. rewrite Hp in E. apply elem_of_seq in E. lia. }
  destruct (for_loop_inv (λ j uo, length uo = output c /\ ∀ o, o < output c -> uo !! o = Some 1 /\ (∃ i x, st <= i < j /\ ind !! i = Some x /\ x / input c = o) \/ uo !! o = Some 0 /\ ~ (∃ i x, st <= i < j /\ ind !! i = Some x /\ x / input c = o))
    (λ i uo, x ← rd ind i; wr uo (x / input c) 1) (n - st) st (repeat 0 (output c))) as (act & -> & La & Ha).
  - split; [apply repeat_length|]. intros o Ho. right. split; [by apply zeros_lookup|]. intros (i & x & ? & _). lia.
  - intros j uo Hj (Lu & Hu). destruct (lookup_lt_is_Some_2 ind j) as [x Ex]; [lia|]. unfold rd. rewrite Ex. cbn [mbind option_bind].
    assert (Hxo : x / input c < output c) by (apply Nat.div_lt_upper_bound; [lia|]; by apply (Hx j)).
    rewrite wr_Some by lia. eexists. split; [done|]. split; [by rewrite insert_length|]. intros o Ho. destruct (decide (o = x / input c)) as [->|Hne].
    + left. rewrite list_lookup_insert by lia. split; [done|]. exists j, x. split; [lia|done].
    + rewrite list_lookup_insert_ne by done. destruct (Hu o Ho) as [[E (i & y & Hi' & Ey & Eo)]|[E Hn]]; [left|right]; (split; [done|]).
      * exists i, y. split; [lia|done].
      * intros (i & y & Hi' & Ey & Eo). destruct (decide (i = j)) as [->|]; [congruence|]. apply Hn. exists i, y. split; [lia|done].
  - exists act. split; [done|]. split; [done|]. intros o Ho. destruct (Ha o Ho) as [[-> H]|[-> H]]; [left|right]; (split; [done|]).
    + destruct H as (i & x & ? & ?). exists i, x. split; [lia|done].
    + intros H'. apply H. destruct H' as (i & x & ? & E & Eo). exists i, x. split; [|done]. apply lookup_lt_Some in E. lia.
Qed.

(** the state of the layer normalization after a reset *)
Definition norm_reset (keep_d : bool) (f r : fcl) : Prop :=
  (∀ b, layer_norm f = Some b -> ∃ b', layer_norm r = Some b' /\ batch b' = batch b /\ vdim b' = vdim b /\ b_mode b' = b_mode b /\ ∀ k, b_arr b' k = bn_reset_value keep_d b k) /\ (layer_norm f = None -> layer_norm r = None).
Lemma bn_reset_shaped kd b b' : bn_shaped b -> batch b' = batch b -> vdim b' = vdim b -> (∀ k, b_arr b' k = bn_reset_value kd b k) -> bn_shaped b'.
Proof.
  intros H Eb Ev Hk. apply (bn_shaped_same b); [done|done|done| |].
  - intros k v. rewrite Hk. unfold bsz. destruct k as [ |[]| |[]| | | |m i]; cbn [bn_reset_value]; try (intros E; by apply (bn_fits b) in E).
    all: try (destruct kd; [intros E; by apply (bn_fits b) in E|]). all: try (intros [= <-]; apply repeat_length). destruct (decide _); [|done]. intros [= <-]. apply repeat_length.
  - intros k. rewrite Hk. destruct k as [ |[]| |[]| | | |m i]; cbn [bn_reset_value]; try done.
    all: try (destruct kd; [done|]). all: try (split; [done|]; intros E; by apply bn_some in E). destruct H as (_ & _ & H). specialize (H (Row m i)). cbn in H. destruct (decide _); [|done]. destruct H as (x & -> & _). done.
Qed.
Lemma reset_norm_ok f (kd : bool) r : shaped f -> (∀ b, bn_shaped b -> ∃ b', r b = Some b' /\ batch b' = batch b /\ vdim b' = vdim b /\ b_mode b' = b_mode b /\ ∀ k, b_arr b' k = bn_reset_value kd b k) ->
  ∃ ln, reset_norm (cfg f) r (layer_norm f) = Some ln /\ (∀ g, layer_norm g = ln -> norm_reset kd f g) /\
   (normalization_flag (cfg f) = Layer_norm -> ∃ b, ln = Some b /\ bn_shaped b /\ batch b = n_groups (cfg f) /\ vdim b = output (cfg f) / n_groups (cfg f)) /\ (normalization_flag (cfg f) <> Layer_norm -> ln = None).
Proof.
  intros S Hr. destruct S as (_ & _ & _ & _ & _ & S1 & S2). unfold reset_norm. destruct (decide _) as [e|e].
  - destruct (S1 e) as (b & En & Hb & Bb & Vb). rewrite En. destruct (Hr b Hb) as (b' & -> & Eb & Ev & Em & Hk). cbn. eexists. split; [done|]. split; [|split; [|done]].
    + intros g Eg. split; [|congruence]. intros b0 E0. assert (b0 = b) as -> by congruence. exists b'. done.
    + intros _. exists b'. split; [done|]. split; [by eapply bn_reset_shaped|]. split; congruence.
  - pose proof (S2 e) as En. rewrite En. eexists. split; [done|]. split; [|split; [done|done]]. intros g Eg. split; [congruence|done].
Qed.
Lemma scratch_cases k : scratch k <-> match k with Pre_activation | Post_activation | Post_normalization | Dropout_mask | Dropout_temp | Temp | Temp2 | Temp3 | Error2 | Temp_weights | Temp_biases => True | _ => False end.
Proof. unfold scratch, kept. destruct k as [ | | | |[]|[]|[]|[]| |[]| | | | | | | | | | | | | ]; cbn; (split; [intros (H1 & H2 & H3)|intros H]); try done; try tauto; try (by destruct H2); try (by destruct H3); split; try done; tauto. Qed.
Section resets.
  Context (f : fcl) (g : nat -> R) (sort : vec -> list nat -> option (list nat)).
  Context (Hc : admissible (cfg f)) (Hs : shaped f).
  Let c := cfg f.
  Lemma adm_ff : feed_forward_flag c <> Only_dropout. Proof using Hc. unfold c. destruct Hc as ((_ & _ & _ & H & _) & _). done. Qed.
  Lemma adm_in : 1 <= input c. Proof using Hc. unfold c. destruct Hc as ((H & _) & _). lia. Qed.
  Lemma has_some k : has c k -> arr f k <> None. Proof using Hs. intros H. destruct Hs as (X & _). destruct (X k H) as (v & E & _). unfold c in *. congruence. Qed.
  (** the scratch arrays after a reset *)
  Definition scratched (r : fcl) : Prop := ∀ k, has c k -> scratch k -> arr r k = Some (repeat (mark k) (fsize c k)).
  Definition renewed (r : fcl) : Prop := noisy c = true -> ∃ v b, arr r Noise = Some v /\ arr r Noise_biases = Some b /\ fresh_noise c g v b.
  Lemma filled_scratch gd (M : list (fstep fld)) k : has c k -> scratch k -> (∀ k, scratch k -> filled M k = None) ->
     filled (ff_fills c gd 1%R ++ M) k = filled (ff_fills c gd 1%R) k.
  Proof using. intros H1 H2 HM. by rewrite filled_app, HM. Qed.
  Lemma has_filled gd k : has c k -> scratch k -> match filled (temp_fills c) k with Some v => Some v | None => filled (ff_fills c gd 1%R ++ noise_steps c) k end = Some (mark k).
  Proof using Hc.
    intros Hh Hk. apply scratch_cases in Hk. rewrite filled_temp, (filled_ff c adm_ff). unfold mark.
    destruct k; try done; try (rewrite bool_decide_eq_true_2 by done); cbn [has] in Hh; rewrite ?Hh; done.
  Qed.
  Lemma kept_filled gd k : kept k -> filled (temp_fills c) k = None /\ filled (ff_fills c gd 1%R ++ noise_steps c) k = None.
  Proof using Hc. intros Hk. rewrite filled_temp, (filled_ff c adm_ff). destruct k as [ | | | |[]|[]|[]|[]| |[]| | | | | | | | | | | | | ]; try done; unfold kept in Hk; cbn in Hk; tauto. Qed.
  Lemma not_noise k : kept k \/ scratch k -> ~ noise_fld k.
  Proof using. intros [H|(_ & H1 & H2)]; destruct k; cbn; try tauto; unfold kept in H; cbn in H; tauto. Qed.
End resets.
Definition db_step (c : config) : list (fstep fld) := [Fl (exists_d_params c) false (DBiases o0) (output c) 0%R].
Lemma d_none c k : scratch k \/ noise_fld k -> filled (d_fills c) k = None /\ filled (db_step c) k = None.
Proof.
  intros H. rewrite scratch_cases in H. unfold d_fills, db_step. destruct (exists_d_params c), (noisy c), k as [ | | | |[]|[]|[]|[]| |[]| | | | | | | | | | | | | ]; cbn in H; try tauto; split; reflexivity.
Qed.
Definition sort_ok (f : fcl) (sort : vec -> list nat -> option (list nat)) : Prop :=
  training_mode (cfg f) = Edge_popup -> ∀ s, arr f Scores = Some s -> ∃ ind, sort s (seq 0 (output (cfg f) * input (cfg f))) = Some ind /\ ind ≡ₚ seq 0 (input (cfg f) * output (cfg f)).
Lemma reset_edge_ok f sort (a : arrays fld) : admissible (cfg f) -> shaped f -> sort_ok f sort -> fits a (fsize (cfg f)) -> (∀ k, a k = None <-> arr f k = None) -> a Scores = arr f Scores ->
  ∃ a' act ind, reset_edge sort f a = Some (a', act, ind) /\ fits a' (fsize (cfg f)) /\ (∀ k, a' k = None <-> arr f k = None) /\ (∀ k, k <> DScores o0 -> a' k = a k) /\
    (training_mode (cfg f) = Edge_popup -> a' (DScores o0) = Some (repeat 0%R (input (cfg f) * output (cfg f)))) /\ (training_mode (cfg f) <> Edge_popup -> a' (DScores o0) = a (DScores o0)) /\
    (∀ r, active r = act -> indices r = ind -> edge_after sort f r) /\
    (∃ l, act = Some l /\ length l = output (cfg f)) /\ (∀ l, ind = Some l -> length l = input (cfg f) * output (cfg f)) /\ (ind = None <-> indices f = None).
Proof.
  intros Hc Hs Hso Hf Hn Hsc. pose proof (shaped_usable f Hs) as (_ & Hact & Hind & _). unfold reset_edge. set (c := cfg f) in *. destruct (decide (training_mode c = Edge_popup)) as [e|e].
  - assert (hS : has c Scores) by (right; done). assert (hD : has c (DScores o0)) by (right; done). destruct Hs as (X & _ & _ & X4 & _). fold c in X, X4. destruct (X4 hS) as (l & El & Ll). rewrite El. cbn [mbind option_bind].
    rewrite decide_True by lia. destruct (X _ hS) as (s & Es & Ls). destruct (X _ hD) as (ds & Eds & Lds).
    destruct (fills_ok (fsize c) [Fl true false (DScores o0) (output c * input c) 0%R] a) as (a' & -> & Hf' & Hk); [repeat constructor; cbn; lia|done|repeat constructor; intros _ _; cbn; rewrite Hn; congruence|]. cbn [mbind option_bind].
    assert (H0 : ∀ k, a' k = match a k with None => None | Some w => Some (if decide (k = DScores o0) then repeat 0%R (fsize c k) else w) end).
    { intros k. rewrite Hk. unfold after_fill. destruct (a k); [|done]. f_equal. cbn [filled f_on f_key f_val andb]. destruct (decide (k = DScores o0)) as [->|Hne]; [done|]. rewrite bool_decide_eq_false_2 by congruence. done. }
    assert (Es' : a' Scores = Some s). { rewrite H0, Hsc, Es. by rewrite decide_False. } rewrite Es'. cbn [mbind option_bind]. rewrite drop_ge, app_nil_r by lia.
    destruct (Hso e s Es) as (ind & Ei & Hp). fold c in Ei, Hp. rewrite Ei. cbn [mbind option_bind]. destruct (used_ok c (k_percentage f) ind) as (act & -> & La & Ha); [destruct Hc as ((? & _) & _); done|done|]. cbn [mbind option_bind].
    exists a', (Some act), (Some ind). split; [done|]. split; [done|]. split; [intros k; rewrite H0, <- Hn; by destruct (a k)|]. split; [intros k Hne; rewrite H0; destruct (a k); [by rewrite decide_False|done]|].
    split; [intros _; rewrite H0; destruct (a (DScores o0)) eqn:E; [by rewrite decide_True|apply Hn in E; congruence]|]. split; [done|]. split; [|split; [by exists act|split; [|split; [done|congruence]]]].
    + intros r Er1 Er2. split; [done|]. intros _. exists s, ind, act. done.
    + intros l' [= <-]. pose proof (Permutation_length Hp) as HL. by rewrite seq_length in HL.
  - exists a, (active f), (indices f). split; [done|]. split; [done|]. split; [done|]. split; [done|]. split; [done|]. split; [done|]. split; [|done]. intros r E1 E2. split; [done|done].
Qed.
(** the resets *)
Lemma reset_fcl_ok f g sort : admissible (cfg f) -> shaped f -> sort_ok f sort -> ∃ r, reset_fcl sort f g = Some r /\ cfg r = cfg f /\ k_percentage r = k_percentage f /\ shaped r /\
  (∀ k, parameter k \/ optimizer k -> arr r k = arr f k) /\ (∀ k, derivative k -> has (cfg f) k -> k <> DScores o0 \/ training_mode (cfg f) = Edge_popup -> arr r k = Some (repeat 0%R (fsize (cfg f) k))) /\
  (training_mode (cfg f) <> Edge_popup -> arr r (DScores o0) = arr f (DScores o0)) /\ scratched f r /\ renewed f g r /\ edge_after sort f r /\ norm_reset false f r.
Proof.
  intros Hc Hs Hso. pose proof (adm_ff f Hc) as Hff. pose proof (adm_in f Hc) as Hin. pose proof (shaped_fits f Hs) as Hf. cbv zeta in Hff, Hin. set (c := cfg f) in *.
  unfold reset_fcl. fold c. cbv zeta. destruct (core_ok c (ff_fills c true 1%R ++ db_step c) (temp_fills c ++ d_fills c) g true (arr f) Hin Hf) as (a1 & a2 & a3 & E1 & E2 & E3 & Hf3 & N3 & Hk & Hz).
  { by apply has_some. } { apply list.Forall_app. split; [by apply ff_step_ok|by apply db_step_ok]. } { apply list.Forall_app. split; [by apply temp_step_ok|by apply d_step_ok]. }
  unfold db_step in E1. rewrite E1. cbn [mbind option_bind]. rewrite E2. cbn [mbind option_bind]. rewrite E3. cbn [mbind option_bind].
  assert (Kk : ∀ k, kept k -> a3 k = after_fill (db_step c ++ d_fills c) (fsize c) (arr f) k).
  { intros k Hkk. rewrite Hk by (apply not_noise; tauto). unfold after_fill. destruct (arr f k); [|done]. pose proof (kept_filled f Hc true k Hkk) as [T F]. fold c in T, F. rewrite filled_app in F. rewrite !filled_app.
    rewrite T. destruct (filled (noise_steps c) k); [done|]. destruct (filled (d_fills c) k); [done|]. rewrite F. by destruct (filled (db_step c) k). }
  assert (Ks : ∀ k, has c k -> scratch k -> a3 k = Some (repeat (mark k) (fsize c k))).
  { intros k Hh Hkk. rewrite Hk by (apply not_noise; tauto). unfold after_fill. destruct (arr f k) eqn:E; [|by apply has_some in E]. f_equal. pose proof (has_filled f Hc true k Hh Hkk) as HH. fold c in HH. rewrite filled_app in HH. rewrite !filled_app.
    destruct (d_none c k) as [D1 D2]; [tauto|]. rewrite D1, D2. destruct (filled (temp_fills c) k); [by injection HH as ->|]. destruct (filled (noise_steps c) k); [by injection HH as ->|]. by rewrite HH. }
  assert (Kp : ∀ k, parameter k \/ optimizer k \/ k = DScores o0 -> a3 k = arr f k).
  { intros k Hp. rewrite Kk by (unfold kept; destruct Hp as [?|[?| ->]]; cbn; tauto). unfold after_fill. destruct (arr f k); [|done]. change (db_step c ++ d_fills c) with (Fl (exists_d_params c) false (DBiases o0) (output c) 0%R :: d_fills c). rewrite filled_d.
    destruct k as [ | | | |[]|[]|[]|[]| |[]| | | | | | | | | | | | | ]; cbn in Hp; try done; destruct Hp as [?|[?|?]]; done. }
  destruct (reset_edge_ok f sort a3 Hc Hs Hso Hf3 N3) as (a4 & act & ind & -> & Hf4 & N4 & K4 & D4 & D4' & Hedge & Hact & Hind & HindN); [apply Kp; left; done|]. fold c in Hf4, D4, D4', Hact, Hind. cbn [mbind option_bind].
  destruct (reset_norm_ok f false reset_bn Hs reset_bn_ok) as (ln & Eln & Hln & L1 & L2). fold c in Eln. rewrite Eln. cbn [mbind option_bind].
  eexists. split; [done|]. cbn [cfg k_percentage arr]. split; [done|]. split; [done|]. split; [|split; [|split; [|split; [|split; [|split; [|split]]]]]].
  - apply (shaped_same f); done.
  - intros k Hp. rewrite K4; [apply Kp; tauto|]. intros ->. destruct Hp; done.
  - intros k Hd Hh Hor. destruct (decide (k = DScores o0)) as [->|Hne]; [destruct Hor as [?|e]; [done|]; by rewrite D4|]. rewrite K4 by done. rewrite Kk by (unfold kept; tauto).
    unfold after_fill. destruct (arr f k) eqn:E; [|by apply has_some in E]. f_equal. change (db_step c ++ d_fills c) with (Fl (exists_d_params c) false (DBiases o0) (output c) 0%R :: d_fills c). rewrite filled_d, exists_d by done.
    destruct k as [ | | | |[]|[]|[]|[]| |[]| | | | | | | | | | | | | ]; try done; cbn [has] in Hh |- *; rewrite bool_decide_eq_true_2 by tauto; try done; destruct Hh as [_ ->]; done.
  - intros e. rewrite D4' by done. apply Kp. tauto.
  - intros k Hh Hk'. cbn [arr]. rewrite K4; [by apply Ks|]. intros ->. destruct Hk' as [H _]. apply H. unfold kept. cbn. tauto.
  - intros Hn. destruct (Hz Hn) as (v & b & Ev & Eb & Hfr). exists v, b. cbn [arr]. rewrite !K4 by done. done.
  - by apply Hedge.
  - by apply Hln.
Qed.
Lemma light_ok f g gd : admissible (cfg f) -> shaped f -> let c := cfg f in ∃ a1 a2 a3, fills (ff_fills c gd 1%R) (arr f) = Some a1 /\ renew_noise c g gd a1 = Some a2 /\ fills (temp_fills c) a2 = Some a3 /\
  fits a3 (fsize c) /\ (∀ k, a3 k = None <-> arr f k = None) /\ (∀ k, kept k -> a3 k = arr f k) /\ (∀ k, has c k -> scratch k -> a3 k = Some (repeat (mark k) (fsize c k))) /\
  (noisy c = true -> ∃ v b, a3 Noise = Some v /\ a3 Noise_biases = Some b /\ fresh_noise c g v b).
Proof.
  intros Hc Hs c. pose proof (adm_ff f Hc) as Hff. pose proof (adm_in f Hc) as Hin. pose proof (shaped_fits f Hs) as Hf. cbv zeta in Hff, Hin. fold c in Hff, Hin, Hf.
  destruct (core_ok c (ff_fills c gd 1%R) (temp_fills c) g gd (arr f) Hin Hf) as (a1 & a2 & a3 & E1 & E2 & E3 & Hf3 & N3 & Hk & Hz).
  { by apply has_some. } { by apply ff_step_ok. } { by apply temp_step_ok. }
  exists a1, a2, a3. split; [done|]. split; [done|]. split; [done|]. split; [done|]. split; [done|]. split; [|split; [|done]].
  - intros k Hkk. rewrite Hk by (apply not_noise; tauto). unfold after_fill. destruct (arr f k); [|done]. pose proof (kept_filled f Hc gd k Hkk) as [T F]. fold c in T, F. rewrite filled_app in F. rewrite !filled_app.
    rewrite T. destruct (filled (noise_steps c) k); [done|]. by rewrite F.
  - intros k Hh Hkk. rewrite Hk by (apply not_noise; tauto). unfold after_fill. destruct (arr f k) eqn:E; [|by apply has_some in E]. f_equal. pose proof (has_filled f Hc gd k Hh Hkk) as HH. fold c in HH. rewrite filled_app in HH. rewrite !filled_app.
    destruct (filled (temp_fills c) k); [by injection HH as ->|]. destruct (filled (noise_steps c) k); [by injection HH as ->|]. by rewrite HH.
Qed.
Lemma reset_except_ok f g : admissible (cfg f) -> shaped f -> ∃ r, reset_fcl_except_partial_derivatives f g = Some r /\ cfg r = cfg f /\ k_percentage r = k_percentage f /\ shaped r /\
  (∀ k, kept k -> arr r k = arr f k) /\ scratched f r /\ renewed f g r /\ active r = active f /\ indices r = indices f /\ norm_reset true f r.
Proof.
  intros Hc Hs. unfold reset_fcl_except_partial_derivatives. destruct (light_ok f g true Hc Hs) as (a1 & a2 & a3 & E1 & E2 & E3 & Hf3 & N3 & Kk & Ks & Hz). cbv zeta. rewrite E1. cbn [mbind option_bind]. rewrite E2. cbn [mbind option_bind]. rewrite E3. cbn [mbind option_bind].
  destruct (reset_norm_ok f true _ Hs reset_bn_except_ok) as (ln & -> & Hln & L1 & L2). cbn [mbind option_bind]. pose proof (shaped_usable f Hs) as (_ & Hact & Hind & _).
  eexists. split; [done|]. cbn [cfg k_percentage arr active indices]. split; [done|]. split; [done|]. split; [by apply (shaped_same f)|]. split; [done|]. split; [done|]. split; [done|]. split; [done|]. split; [done|]. by apply Hln.
Qed.
Lemma reset_without_ok f g sort : admissible (cfg f) -> shaped f -> sort_ok f sort -> ∃ r, reset_fcl_without_dwdb sort f g = Some r /\ cfg r = cfg f /\ k_percentage r = k_percentage f /\ shaped r /\
  (∀ k, kept k -> k <> DScores o0 -> arr r k = arr f k) /\ (training_mode (cfg f) = Edge_popup -> arr r (DScores o0) = Some (repeat 0%R (input (cfg f) * output (cfg f)))) /\
  (training_mode (cfg f) <> Edge_popup -> arr r (DScores o0) = arr f (DScores o0)) /\ scratched f r /\ renewed f g r /\ edge_after sort f r /\ norm_reset false f r.
Proof.
  intros Hc Hs Hso. unfold reset_fcl_without_dwdb. destruct (light_ok f g false Hc Hs) as (a1 & a2 & a3 & E1 & E2 & E3 & Hf3 & N3 & Kk & Ks & Hz). cbv zeta. rewrite E1. cbn [mbind option_bind]. rewrite E2. cbn [mbind option_bind]. rewrite E3. cbn [mbind option_bind].
  destruct (reset_edge_ok f sort a3 Hc Hs Hso Hf3 N3) as (a4 & act & ind & -> & Hf4 & N4 & K4 & D4 & D4' & Hedge & Hact & Hind & HindN); [apply Kk; left; done|]. cbn [mbind option_bind].
  destruct (reset_norm_ok f false reset_bn Hs reset_bn_ok) as (ln & -> & Hln & L1 & L2). cbn [mbind option_bind].
  eexists. split; [done|]. cbn [cfg k_percentage arr]. split; [done|]. split; [done|]. split; [by apply (shaped_same f)|]. split; [intros k H1 H2; rewrite K4 by done; by apply Kk|]. split; [done|]. split; [intros e; rewrite D4' by done; apply Kk; unfold kept; cbn; tauto|].
  split; [|split; [|split]].
  - intros k Hh Hk'. cbn [arr]. rewrite K4; [by apply Ks|]. intros ->. destruct Hk' as [H _]. apply H. unfold kept. cbn. tauto.
  - intros Hn. destruct (Hz Hn) as (v & b & Ev & Eb & Hfr). exists v, b. cbn [arr]. rewrite !K4 by done. done.
  - by apply Hedge.
  - by apply Hln.
Qed.
(** switching modes *)
Lemma popup_after_gd f k g sort f' : shaped f -> feed_forward_flag (cfg f) = Fully -> training_mode (cfg f) <> Edge_popup -> set_training_edge_popup k f = Some f' -> reset_fcl sort f' g = None.
Proof.
  intros Hs Hff Ht. unfold set_training_edge_popup. destruct (decide _); [done|]. destruct (decide _); [done|]. intros [= <-]. unfold reset_fcl. cbv zeta.
  destruct (fills _ _) as [a1|]; [|done]. cbn [mbind option_bind]. destruct (renew_noise _ _ _ _) as [a2|]; [|done]. cbn [mbind option_bind]. destruct (fills _ a2) as [a3|]; [|done]. cbn [mbind option_bind].
  assert (indices f = None) as Hi. { destruct Hs as (_ & _ & _ & _ & X & _). apply X. cbn. rewrite Hff. intros [?|?]; done. }
  unfold reset_edge, with_cfg. cbn [cfg training_mode indices]. rewrite decide_True by done. rewrite Hi. done.
Qed.
Lemma gd_after_popup f g sort : shaped f -> feed_forward_flag (cfg f) <> Only_dropout -> training_mode (cfg f) = Edge_popup -> reset_fcl sort (set_training_gd f) g = None.
Proof.
  intros Hs Hff Ht. unfold reset_fcl. cbv zeta. assert (Hn : arr f (DBiases o0) = None). { destruct Hs as (_ & X & _). apply X. cbn. rewrite Ht. tauto. }
  rewrite (fills_none _ _ (Fl (exists_d_params (cfg (set_training_gd f))) false (DBiases o0) (output (cfg (set_training_gd f))) 0%R)); [done| | |done|done].
  - apply elem_of_app. right. apply elem_of_list_singleton. done.
  - cbn [f_on]. unfold exists_d_params. apply bool_decide_eq_true_2. unfold set_training_gd, with_cfg. cbn. done.
Qed.
Lemma popup_norm_copy f k ws nw g f' : normalization_flag (cfg f) = Layer_norm -> set_training_edge_popup k f = Some f' -> copy_fcl f' ws nw g = None.
Proof.
  intros Hl. unfold set_training_edge_popup. destruct (decide _); [done|]. destruct (decide _); [done|]. intros [= <-]. unfold copy_fcl, fully_connected, with_cfg. cbn [cfg input output layer dropout_flag activation dropout_threshold n_groups normalization_flag training_mode feed_forward_flag noisy].
  rewrite Hl. rewrite (decide_False (P := Layer_norm = Group_norm)) by done.
  rewrite (decide_False (P := config_ok _)); [done|]. unfold config_ok. cbn. intros (_ & _ & _ & _ & _ & _ & H). apply H; [left; done|done].
Qed.
Lemma ff_arr f : arr (make_only_for_ff f) = foldl drop_array (arr f) [DWeights o0; DWeights o1; DWeights o2; DWeights o3; DBiases o0; DBiases o1; DBiases o2; DBiases o3; Temp; Temp2; Temp3; Error2] /\
  training_mode (cfg (make_only_for_ff f)) = Only_ff.
Proof. unfold make_only_for_ff. cbv zeta. destruct (decide _); done. Qed.
Lemma reset_after_ff f g sort : reset_fcl sort (make_only_for_ff f) g = None.
Proof.
  pose proof (ff_arr f) as [Ha Ht]. unfold reset_fcl. cbv zeta. set (f' := make_only_for_ff f) in *. clearbody f'. destruct (fills _ (arr f')) as [a1|] eqn:E1; [|done]. cbn [mbind option_bind].
  assert (H0 : arr f' Temp = None) by (rewrite Ha; reflexivity).
  assert (Hfs : ∀ steps (a a' : arrays fld), fills steps a = Some a' -> a Temp = None -> a' Temp = None).
  { induction steps as [|s steps IH]; intros a a' E Hn; [by injection E as <-|]. cbn [fills] in E. destruct (fill_step s a) as [d|] eqn:Ed; [|done]. cbn [mbind option_bind] in E. apply (IH d a' E).
    unfold fill_step in Ed. destruct (f_on s); cbn [negb] in Ed; [|by injection Ed as <-]. destruct (decide (Temp = f_key s)) as [Ek|Hne].
    - rewrite <- Ek, Hn in Ed. destruct (f_guarded s); [by injection Ed as <-|done].
    - destruct (a (f_key s)); [destruct (decide _); [|done]; injection Ed as <-; by rewrite put_ne|]. destruct (f_guarded s); [by injection Ed as <-|done]. }
  destruct (renew_noise _ _ _ a1) as [a2|] eqn:E2; [|done]. cbn [mbind option_bind].
  assert (H2 : a2 Temp = None).
  { pose proof (Hfs _ _ _ E1 H0) as H1. unfold renew_noise in E2. destruct (noisy (cfg f')); [|by injection E2 as <-]. destruct (a1 Noise) as [v|]; [destruct (a1 Noise_biases) as [b|]|].
    - destruct (set_factorised_noise _ _ _ _ _) as [[[? v'] b']|]; [|done]. cbn [mbind option_bind] in E2. apply (Hfs _ _ _ E2). rewrite !put_ne by done. done.
    - cbn [mbind option_bind] in E2. by apply (Hfs _ _ _ E2).
    - cbn [mbind option_bind] in E2. by apply (Hfs _ _ _ E2). }
  rewrite (fills_none _ a2 (Fl true false Temp (output (cfg f')) 0%R)); [done| |done|done|done]. unfold temp_fills. cbn [app]. apply elem_of_list_here.
Qed.
Lemma train_inference f : cfg (train_fcl (inference_fcl f)) = (if decide (dropout_flag (cfg f) = Dropout_test) then cfg (train_fcl f) else cfg f) /\ arr (train_fcl (inference_fcl f)) = arr f.
Proof.
  unfold inference_fcl, train_fcl. destruct (decide (dropout_flag (cfg f) = Dropout)) as [e|e].
  - rewrite (decide_True (P := dropout_flag (cfg (with_cfg _ _ _ _ _ _ _)) = Dropout_test)) by done. rewrite (decide_False (P := dropout_flag (cfg f) = Dropout_test)) by congruence. split; [|done].
    unfold with_cfg. cbn. destruct (cfg f); cbn in *. rewrite e. f_equal. lra.
  - destruct (decide _); done.
Qed.
(** the sort of the library keeps every connection *)
Lemma sort_scores_ok f : admissible (cfg f) -> shaped f -> sort_ok f sort_scores.
Proof.
  intros ((Hi & Ho & _) & _) Hs e s Es. destruct Hs as (X & _). destruct (X Scores) as (s' & Es' & Ls); [right; done|]. assert (s' = s) as -> by congruence. cbn [fsize] in Ls.
  unfold sort_scores, Sort_Model.sort_array. rewrite seq_length. destruct (output (cfg f) * input (cfg f)) as [|h] eqn:En; [nia|].
  match goal with |- context [Sort_Model.merge_sort 1 _ ?v _ _ _] => destruct (C05_sort_keeps_all_indices_partial 1 v (seq 0 (S h)) 0 h (S (S h))) as (ind & -> & Hp & _) end.
  - rewrite seq_length. lia.
  - rewrite map_length. lia.
  - lia.
  - exists ind. split; [done|]. rewrite (Nat.mul_comm (input _)), En. done.
Qed.
(** a layer kept for feed forward only *)
Lemma ff_cfg f : let c' := cfg (make_only_for_ff f) in let c := cfg f in input c' = input c /\ output c' = output c /\ activation c' = activation c /\ normalization_flag c' = normalization_flag c /\ n_groups c' = n_groups c /\
  feed_forward_flag c' = feed_forward_flag c /\ noisy c' = noisy c /\ (dropout_flag c' = No_dropout <-> dropout_flag c = No_dropout) /\
  k_percentage (make_only_for_ff f) = k_percentage f /\ active (make_only_for_ff f) = active f /\ indices (make_only_for_ff f) = indices f /\ layer_norm (make_only_for_ff f) = layer_norm f.
Proof. unfold make_only_for_ff. cbv zeta. destruct (decide _) as [e|e]; cbn in *; rewrite ?e; done. Qed.
Lemma ff_adm f : admissible (cfg f) -> admissible (cfg (make_only_for_ff f)).
Proof.
  intros ((H1 & H2 & H3 & H4 & H5 & H6 & H7) & H8). unfold make_only_for_ff. cbv zeta. destruct (decide _) as [e|e]; cbn in *; (split; [|done]); unfold config_ok; cbn; (split; [done|]); (split; [done|]).
  - split; [lra|]. split; [done|]. split; [done|]. split; [intros H; apply H6 in H; congruence|]. intros [H|H]; [apply H7; tauto|done].
  - split; [lra|]. split; [done|]. split; [done|]. split; [done|]. intros [H|H]; [apply H7; tauto|done].
Qed.
Lemma ff_keeps f k : arr (make_only_for_ff f) k = arr f k \/ arr (make_only_for_ff f) k = None.
Proof. rewrite (proj1 (ff_arr f)). destruct k as [ | | | |[]|[]|[]|[]| |[]| | | | | | | | | | | | | ]; first [left; reflexivity|right; reflexivity]. Qed.
Lemma ff_keeps_at f k : match k with DWeights _ | DBiases _ | Temp | Temp2 | Temp3 | Error2 => False | _ => True end -> arr (make_only_for_ff f) k = arr f k.
Proof. rewrite (proj1 (ff_arr f)). intros H. destruct k as [ | | | |[]|[]|[]|[]| |[]| | | | | | | | | | | | | ]; first [reflexivity|destruct H]. Qed.
Lemma ff_usable f : shaped f -> usable (make_only_for_ff f).
Proof.
  intros Hs. pose proof (shaped_usable f Hs) as (U1 & U2 & U3 & U4). destruct (ff_cfg f) as (C1 & C2 & _ & C4 & C5 & _ & _ & _ & _ & A1 & A2 & A3). unfold usable. cbv zeta. rewrite C1, C2, C4, C5, A1, A2, A3. split; [|done].
  intros k v E. rewrite (fsize_same _ (cfg f)) by done. apply U1. destruct (ff_keeps f k); congruence.
Qed.
Lemma ff_reset f g : admissible (cfg f) -> shaped f -> ∃ r, reset_fcl_only_for_ff (make_only_for_ff f) g = Some r /\ cfg r = cfg (make_only_for_ff f) /\ active r = active f /\ indices r = indices f /\
  (∀ k, parameter k -> arr r k = arr f k) /\ (∀ k, k = Pre_activation \/ k = Post_activation \/ k = Post_normalization -> has (cfg f) k -> arr r k = Some (repeat 0%R (output (cfg f)))) /\
  (noisy (cfg f) = true -> ∃ v b, arr r Noise = Some v /\ arr r Noise_biases = Some b /\ fresh_noise (cfg f) g v b) /\ norm_reset false f r.
Proof.
  intros Hc Hs. destruct (ff_cfg f) as (C1 & C2 & C3 & C4 & C5 & C6 & C7 & C8 & C9 & A1 & A2 & A3). destruct (ff_usable f Hs) as (U1 & _). pose proof (adm_ff f Hc) as Hff. cbv zeta in Hff. rewrite <- C6 in Hff. pose proof (adm_in f Hc) as Hin. cbv zeta in Hin.
  assert (Hat := ff_keeps_at f). unfold reset_fcl_only_for_ff. cbv zeta. set (f' := make_only_for_ff f) in *. set (c' := cfg f') in *.
  assert (Hh : ∀ k, (k = Pre_activation \/ k = Post_activation \/ k = Post_normalization \/ k = Dropout_mask \/ k = Dropout_temp \/ k = Noise \/ k = Noise_biases \/ k = Temp_weights \/ k = Temp_biases) -> has c' k -> arr f' k <> None).
  { intros k Hk h. rewrite Hat by (repeat destruct Hk as [->|Hk]; subst; done). apply has_some; [done|].
    repeat destruct Hk as [->|Hk]; subst; cbn [has] in h |- *; rewrite ?C3, ?C4, ?C7, ?C8 in h; done. }
  destruct (fills_ok (fsize c') (ff_fills c' true 1%R) (arr f')) as (a1 & E1 & Hf1 & Hk1); [eapply list.Forall_impl; [by apply (ff_step_ok c' Hff true)|by intros ? (? & _)]|done| |].
  { unfold ff_fills. rewrite exists_p, exists_act, exists_nrm by done. repeat (apply list.Forall_cons; split); [..|by apply list.Forall_nil]; cbn [f_on f_guarded f_key]; intros h1 h2; try done; apply Hh; try tauto; [done..|by apply bool_decide_eq_true in h1]. }
  rewrite E1. cbn [mbind option_bind]. assert (N1 : ∀ k, a1 k = None <-> arr f' k = None) by (intros k; rewrite Hk1; unfold after_fill; by destruct (arr f' k)).
  destruct (renew_ok c' g true a1) as (a2 & E2 & Hf2 & N2 & Hk2 & _ & Hz); [by rewrite C1|done| |].
  { intros Hn k Hk. rewrite N1. apply Hh; [tauto|]. destruct Hk as [->|[->|[->| ->]]]; done. }
  rewrite E2. cbn [mbind option_bind]. destruct (reset_norm_ok f false reset_bn Hs reset_bn_ok) as (ln & Eln & Hln & _).
  assert (reset_norm c' reset_bn (layer_norm f') = Some ln) as ->. { unfold reset_norm in *. rewrite C4, A3. done. } cbn [mbind option_bind].
  assert (Hk : ∀ k, ~ noise_fld k -> a2 k = after_fill (ff_fills c' true 1%R ++ noise_steps c') (fsize c') (arr f') k) by (intros k Hk; rewrite Hk2 by done; by apply after_after).
  eexists. split; [done|]. cbn [cfg active indices arr]. split; [done|]. split; [done|]. split; [done|]. split; [|split; [|split]].
  - intros k Hp. rewrite Hk by (destruct k; try destruct Hp; cbn; tauto). unfold after_fill. rewrite (filled_ff c' Hff). rewrite Hat by (destruct k; done). destruct k; try destruct Hp; by destruct (arr f _).
  - intros k Hp h. assert (h' : has c' k). { destruct Hp as [->|[->| ->]]; cbn [has] in h |- *; rewrite ?C3, ?C4; done. }
    rewrite Hk by (destruct Hp as [->|[->| ->]]; cbn; tauto). unfold after_fill. destruct (arr f' k) eqn:E; [|apply Hh in E; [done|tauto|done]]. f_equal. rewrite (filled_ff c' Hff).
    destruct Hp as [->|[->| ->]]; cbn [fsize]; rewrite ?C2; [done| |]. { cbn [has] in h'. by rewrite h'. } by rewrite bool_decide_eq_true_2.
  - intros Hn. rewrite <- C7 in Hn. destruct (Hz Hn) as (v & b & Ev & Eb & Hfr). exists v, b. split; [done|]. split; [done|]. unfold fresh_noise in *. rewrite C1, C2 in Hfr. done.
  - by apply Hln.
Qed.
Lemma norm_after_of kd f r : norm_reset kd f r -> norm_after kd (layer_norm f) (layer_norm r).
Proof.
  intros [H1 H2]. destruct (layer_norm f) as [b|]; [|by rewrite H2]. destruct (H1 b eq_refl) as (b' & -> & E1 & E2 & E3 & Hk). cbn. split; [done|]. split; [done|]. split; [done|]. split; [by rewrite Hk|]. split; [by rewrite Hk|].
  split; [intros [] Ho; by rewrite !Hk|]. split; [intros k [->| ->]; by rewrite Hk|]. intros k [->|[->|(m & i & Hi & ->)]]; rewrite Hk; [done|done|]. cbn. by rewrite decide_True.
Qed.
Lemma new_noise_of c g r v b : arr r Noise = Some v -> arr r Noise_biases = Some b -> fresh_noise c g v b -> new_noise c g r.
Proof.
  intros Ev Eb [Hb Hv]. exists v, b, (column (output c)). split; [done|]. split; [done|]. split; [intros j Hj; rewrite Hb by done; apply factorised_root|].
  intros i Hi. exists (factorised (g (column (output c) i))). split; [apply factorised_root|]. intros j Hj. by rewrite Hv, Hb.
Qed.
