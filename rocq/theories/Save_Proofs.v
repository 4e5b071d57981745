From Coq Require Import Sorted.
From Verif Require Import Save_Model Save_Spec BaseLemmas.
Open Scope Z_scope.

(** * Files and arrays *)
Lemma fwrite_ok l n w : 0 < n -> Z.of_nat (length l) = n -> fwrite (Some l) n w = Some (w ++ l).
Proof.
  intros H1 H2. unfold fwrite. cbn. rewrite decide_True; [|lia]. rewrite take_ge; [done|lia].
Qed.
Lemma fread_ok l n w : 0 < n -> Z.of_nat (length l) = n -> fread n (l ++ w) = Some (l, w).
Proof.
  intros H1 H2. unfold fread. rewrite decide_True; [|rewrite app_length; lia].
  replace (Z.to_nat n) with (length l) by lia. by rewrite take_app, drop_app.
Qed.
Lemma fread1_ok x w : fread1 (x :: w) = Some (x, w).
Proof. done. Qed.
Lemma freadp_ok l n w : 0 < n -> Z.of_nat (length l) = n -> freadp true n (l ++ w) = Some (Some l, w).
Proof. intros. unfold freadp. by rewrite fread_ok. Qed.
Lemma copy_array_ok s d n : length s = n -> length d = n -> copy_array s d (Z.of_nat n) = Some s.
Proof.
  intros Hs Hd. unfold copy_array. rewrite Nat2Z.id.
  assert (H : exists d', for_loop n 0 (fun i d => x ← rd s i; wr d i x) d = Some d' /\ length d' = n /\ forall i, (i < n)%nat -> d' !! i = s !! i).
  { apply (for_loop_inv (fun i d' => length d' = n /\ forall j, (j < i)%nat -> d' !! j = s !! j)); [split; [done|lia]|].
    intros i d' Hi [Hl Hp]. destruct (lookup_lt_is_Some_2 s i ltac:(lia)) as [x Hx].
    unfold rd. rewrite Hx. cbn. rewrite wr_Some; [|lia]. eexists. split; [done|]. split; [by rewrite insert_length|].
    intros j Hj. destruct (decide (j = i)) as [->|Hne]; [rewrite list_lookup_insert; [done|lia]|].
    rewrite list_lookup_insert_ne; [|done]. apply Hp. lia. }
  destruct H as (d' & -> & Hl & Hp). f_equal. apply list_eq_same_length with n; [done|done|].
  intros i x y Hi Hx Hy. rewrite Hp in Hx; [congruence|done].
Qed.
Lemma copy_ok s d n : Z.of_nat (length s) = n -> length d = length s -> copy_array s d n = Some s.
Proof. intros <- Hd. by apply copy_array_ok. Qed.
Lemma copyp_ok s d n : Z.of_nat (length s) = n -> length d = length s -> copyp (Some s) (Some d) n = Some (Some s).
Proof. intros Hs Hd. unfold copyp. by rewrite copy_ok. Qed.
Lemma fresh_arr_length n x : length (fresh_arr n x) = Z.to_nat n.
Proof. apply replicate_length. Qed.
Lemma fresh_rnd_length n r : length (fresh_rnd n r) = Z.to_nat n.
Proof. unfold fresh_rnd. by rewrite fmap_length, seq_length. Qed.

(** * Lists of objects *)
Section lists.
  Context {A : Type} (save : A -> file -> option file) (load : file -> option (A * file)).
  Lemma save_all_ok (l : list A) (bs : list file) w :
    Forall2 (fun x b => forall w, save x w = Some (w ++ b)) l bs ->
    save_all (Z.of_nat (length l)) l save w = Some (w ++ concat bs).
  Proof.
    intros H. unfold save_all. rewrite Nat2Z.id.
    destruct (for_loop_inv (fun i (w' : file) => w' = w ++ concat (take i bs)) 
                           (fun i (w : file) => x ← rd l i; save x w) (length l) 0 w) as (w' & -> & ->).
    - cbn. by rewrite app_nil_r.
    - intros i w' Hi ->. destruct (lookup_lt_is_Some_2 l i ltac:(lia)) as [x Hx].
      destruct (Forall2_lookup_l _ _ _ _ _ H Hx) as (b & Hb & Hs).
      unfold rd. rewrite Hx. cbn. rewrite Hs. eexists. split; [done|].
      rewrite (take_S_r _ _ _ Hb), concat_app; cbn; rewrite app_nil_r. by rewrite app_assoc.
    - rewrite take_ge; [done|]. rewrite <- (Forall2_length _ _ _ H). cbn. lia.
  Qed.
  Lemma load_all_ok (bs : list file) (ys : list A) rest :
    Forall2 (fun b y => forall rest, load (b ++ rest) = Some (y, rest)) bs ys ->
    load_all (Z.of_nat (length ys)) load (concat bs ++ rest) = Some (ys, rest).
  Proof.
    intros H. unfold load_all. rewrite Nat2Z.id.
    destruct (for_loop_inv (fun i (s : list A * file) => s = (take i ys, concat (drop i bs) ++ rest)) 
                           (fun _ (s : list A * file) => '(x, w) ← load s.2; Some (s.1 ++ [x], w)) (length ys) 0 ([], concat bs ++ rest)) as (s & -> & ->).
    - by rewrite drop_0.
    - intros i s Hi ->. destruct (lookup_lt_is_Some_2 ys i ltac:(lia)) as [x Hx]. cbn.
      destruct (Forall2_lookup_r _ _ _ _ _ H Hx) as (b & Hb & Hs).
      rewrite (drop_S _ _ _ Hb); cbn; rewrite <- app_assoc, Hs. cbn. eexists. split; [done|].
      by rewrite (take_S_r _ _ _ Hx).
    - rewrite take_ge; [|cbn; lia]. rewrite drop_ge; [done|]. rewrite (Forall2_length _ _ _ H). cbn. lia.
  Qed.
  (** objects that come back come back in lists *)
  Lemma round_trip_list (l : list A) (g : A -> A) :
    Forall (fun x => round_trip_to save load x (g x)) l ->
    exists bytes, (forall w, save_all (Z.of_nat (length l)) l save w = Some (w ++ bytes))
      /\ forall rest, load_all (Z.of_nat (length l)) load (bytes ++ rest) = Some (g <$> l, rest).
  Proof.
    intros H.
    assert (exists bs, Forall2 (fun x b => forall w, save x w = Some (w ++ b)) l bs
                       /\ Forall2 (fun b y => forall rest, load (b ++ rest) = Some (y, rest)) bs (g <$> l)) as (bs & H1 & H2).
    { induction H as [|x l (b & H1 & H2) _ (bs & IH1 & IH2)]; [exists []; split; constructor|].
      exists (b :: bs). split; constructor; done. }
    exists (concat bs). split; [intros; by apply save_all_ok|].
    intros rest. rewrite <- (fmap_length g). by apply load_all_ok.
  Qed.
End lists.

(** * Normalization layers *)
Definition bn_bytes (b : bn) : file := [b_batch b; b_dim b] ++ b_gamma b ++ b_beta b.
Lemma reach_bn_inv b : reach_bn b -> 0 < b_batch b /\ 0 < b_dim b /\ Z.of_nat (length (b_gamma b)) = b_dim b /\ Z.of_nat (length (b_beta b)) = b_dim b.
Proof.
  intros (ba & d & b0 & H & Hb & Hd & Hg & Hbe). unfold batch_normalization in H. case_decide; [done|]. injection H as <-. cbn in *.
  rewrite fresh_arr_length in Hg. rewrite fresh_arr_length in Hbe. lia.
Qed.
Lemma save_bn_ok b w : reach_bn b -> save_bn b w = Some (w ++ bn_bytes b).
Proof.
  intros (H1 & H2 & H3 & H4)%reach_bn_inv. unfold save_bn, fwrites. cbn -[fwrite].
  rewrite fwrite_ok by done. cbn -[fwrite]. rewrite fwrite_ok by done. unfold bn_bytes. by rewrite <- !app_assoc.
Qed.
Lemma load_bn_ok b w : reach_bn b -> load_bn (bn_bytes b ++ w) = Some (b, w).
Proof.
  intros (H1 & H2 & H3 & H4)%reach_bn_inv. unfold load_bn, bn_bytes. cbn -[fread copy_array batch_normalization].
  rewrite <- app_assoc, fread_ok by done. cbn -[fread copy_array batch_normalization].
  rewrite fread_ok by done. cbn -[fread copy_array batch_normalization]. unfold batch_normalization. rewrite decide_False; [|lia].
  cbn -[copy_array]. rewrite copy_ok; [|done|rewrite fresh_arr_length; lia]. cbn -[copy_array]. rewrite copy_ok; [|done|rewrite fresh_arr_length; lia].
  cbn. by destruct b.
Qed.
Lemma round_trip_bn b : reach_bn b -> round_trip save_bn load_bn b.
Proof. intros H. exists (bn_bytes b). split; intros; [by apply save_bn_ok|by apply load_bn_ok]. Qed.

(** * Fully connected layers *)
Definition arr_of (n : Z) (a : arr) : Prop := exists l, a = Some l /\ Z.of_nat (length l) = n.
Record fcl_ok (f : fcl) : Prop := {
  fo_rej : fcl_rejected (f_cfg f) = false;
  fo_norm : f_norm (f_cfg f) <> GROUP_NORMALIZATION;
  fo_w : arr_of (f_in (f_cfg f) * f_out (f_cfg f)) (f_w f);
  fo_b : arr_of (f_out (f_cfg f)) (f_b f);
  fo_a : arr_of (f_out (f_cfg f)) (f_active f);
  fo_noisy : if bool_decide (f_mode (f_cfg f) = NOISY) then arr_of (f_in (f_cfg f) * f_out (f_cfg f)) (f_nw f) /\ arr_of (f_out (f_cfg f)) (f_nb f)
             else f_nw f = None /\ f_nb f = None;
  fo_edge : if fcl_edge (f_cfg f) then arr_of (f_in (f_cfg f) * f_out (f_cfg f)) (f_scores f) /\ arr_of (f_in (f_cfg f) * f_out (f_cfg f)) (f_indices f)
            else f_scores f = None /\ f_indices f = None;
  fo_ln : if bool_decide (f_norm (f_cfg f) = LAYER_NORMALIZATION) then
            exists b, f_ln f = Some b /\ reach_bn b /\ b_batch b = f_groups (f_cfg f) /\ b_dim b = Z.quot (f_out (f_cfg f)) (f_groups (f_cfg f))
          else f_ln f = None }.
Lemma rejected_inv c : fcl_rejected c = false ->
  0 < f_in c /\ 0 < f_out c /\ 0 < f_in c * f_out c /\ f_ff c <> ONLY_DROPOUT /\ f_train c <> FREEZE_BIASES
  /\ (f_norm c = LAYER_NORMALIZATION -> 0 < f_groups c /\ 0 < Z.quot (f_out c) (f_groups c)).
Proof.
  unfold fcl_rejected. rewrite !orb_false_iff, !bool_decide_eq_false.
  intros ((((((((H1 & _) & _) & _) & H5) & H6) & _) & ((H8 & _) & _)) & _).
  split; [lia|]. split; [lia|]. split; [lia|].
  apply dec_stable in H5. apply dec_stable in H6.
  split; [intros E; rewrite E in H6; by set_unfold in H6; unfold ONLY_DROPOUT, FULLY_FEED_FORWARD, EDGE_POPUP in *; lia|].
  split; [intros E; rewrite E in H5; by set_unfold in H5; unfold FREEZE_BIASES, FREEZE_TRAINING, GRADIENT_DESCENT, ONLY_FF, EDGE_POPUP in *; lia|].
  intros E. rewrite E, decide_False in H8 by done.
  destruct (decide (0 < f_groups c /\ f_groups c < f_out c)) as [?|Hn]; [split; [lia|]; apply Z.quot_str_pos; lia|].
  exfalso. apply H8. split; [done|]. destruct (decide (f_groups c <= 0)); [by left|right; left; lia].
Qed.
Lemma same_size_of n a l : same_size a (Some l) -> length l = Z.to_nat n -> 0 < n -> arr_of n a.
Proof. unfold same_size. destruct a as [a|]; cbn; intros [= E0] E Hn. exists a. split; [done|]. lia. Qed.
Lemma same_size_None a : same_size a None -> a = None.
Proof. by destruct a. Qed.
Lemma quot_pos a b : 0 < b -> b < a -> 0 < Z.quot a b.
Proof. intros. apply Z.quot_str_pos. lia. Qed.
Lemma norm_norm c : fcl_rejected c = false ->
  fcl_rejected (Fcfg (f_in c) (f_out c) (f_layer c) (f_drop c) (f_act c) (f_thr c) (f_groups c)
                (if decide (f_norm c = GROUP_NORMALIZATION) then LAYER_NORMALIZATION else f_norm c) (f_train c) (f_ff c) (f_mode c)) = false.
Proof.
  intros H. destruct (decide (f_norm c = GROUP_NORMALIZATION)) as [E|E]; [|by destruct c].
  revert H. unfold fcl_rejected. cbn [f_in f_out f_layer f_drop f_act f_thr f_groups f_norm f_train f_ff f_mode].
  rewrite E. rewrite (decide_True (P := GROUP_NORMALIZATION = GROUP_NORMALIZATION)) by done.
  rewrite (decide_False (P := LAYER_NORMALIZATION = GROUP_NORMALIZATION)) by done. cbn zeta.
  rewrite !orb_false_iff. intros ((((((((H1 & H2) & H3) & H4) & H5) & H6) & _) & H8) & H9). split_and!; try done; apply H8.
Qed.
Lemma bn_reach b g o : 0 < g -> 0 < o ->
  b_batch b = g -> b_dim b = o -> length (b_gamma b) = Z.to_nat o -> length (b_beta b) = Z.to_nat o -> reach_bn b.
Proof.
  intros. exists g, o, (Bn g o (fresh_arr o f1) (fresh_arr o f0)). unfold batch_normalization. rewrite decide_False by lia. split; [done|].
  unfold bn_like. cbn. rewrite !fresh_arr_length. auto.
Qed.
Lemma reach_fcl_ok f : reach_fcl f -> fcl_ok f.
Proof.
  intros (rnd & nz & c & g & H & Hl). unfold fully_connected in H. destruct (fcl_rejected c) eqn:E; [done|].
  pose proof (norm_norm _ E) as E'. revert H. set (c' := Fcfg _ _ _ _ _ _ _ _ _ _ _) in *. intros H.
  assert (Hn : f_norm c' <> GROUP_NORMALIZATION) by (subst c'; cbn; case_decide; done). clearbody c'. clear c E. rename c' into c.
  destruct (rejected_inv _ E') as (Hi & Ho & Hio & Hff & _ & Hln). rewrite (bool_decide_eq_true_2 (f_ff c <> ONLY_DROPOUT)) in H by done.
  cbn [andb] in H.
  apply bind_Some in H as (ln & Hb & [= <-]).
  destruct Hl as (Hc & Hw & Hbi & Ha & Hnw & Hnb & Hs & Hind & Hl). cbn [f_cfg f_w f_b f_active f_nw f_nb f_scores f_indices f_ln] in *.
  constructor; rewrite Hc; try done.
  - eapply same_size_of; [exact Hw|apply fresh_rnd_length|done].
  - eapply same_size_of; [exact Hbi|apply fresh_arr_length|done].
  - eapply same_size_of; [exact Ha|apply fresh_arr_length|done].
  - destruct (bool_decide (f_mode c = NOISY)); [|split; by apply same_size_None].
    split; eapply same_size_of; [exact Hnw|apply fresh_rnd_length|done|exact Hnb|apply fresh_arr_length|done].
  - destruct (fcl_edge c); [|split; by apply same_size_None].
    split; eapply same_size_of; [exact Hs|apply fresh_arr_length|done|exact Hind|by rewrite fmap_length, seq_length|done].
  - destruct (decide (f_norm c = LAYER_NORMALIZATION)) as [En|En].
    + rewrite bool_decide_eq_true_2 by done. destruct (Hln En) as [Hg1 Hg2]. unfold batch_normalization in Hb. rewrite decide_False in Hb by lia.
      cbn in Hb. injection Hb as <-. destruct (f_ln f) as [b|]; [|done]. destruct Hl as (H1 & H2 & H3 & H4). cbn in *.
      rewrite fresh_arr_length in H3, H4. exists b. split; [done|]. split; [by apply (bn_reach b (f_groups c) (Z.quot (f_out c) (f_groups c)))|done].
    + rewrite bool_decide_eq_false_2 by done. injection Hb as <-. by destruct (f_ln f).
Qed.

Definition arr_bytes (a : arr) : file := default [] a.
Definition fcl_header (c : fcfg) : file :=
  [f_mode c; f_groups c; f_norm c; f_ff c; f_train c; f_in c; f_out c; f_layer c; f_drop c; f_act c; f_thr c].
Definition fcl_bytes (f : fcl) : file :=
  fcl_header (f_cfg f) ++ (arr_bytes (f_w f) ++ arr_bytes (f_b f) ++ arr_bytes (f_active f)) ++ (arr_bytes (f_nw f) ++ arr_bytes (f_nb f))
  ++ (arr_bytes (f_scores f) ++ arr_bytes (f_indices f)) ++ default [] (bn_bytes <$> f_ln f).
Lemma fwrite_arr n a w : 0 < n -> arr_of n a -> fwrite a n w = Some (w ++ arr_bytes a).
Proof. intros Hn (l & -> & Hl). by apply fwrite_ok. Qed.
Lemma freadp_arr n a w : 0 < n -> arr_of n a -> freadp true n (arr_bytes a ++ w) = Some (a, w).
Proof. intros Hn (l & -> & Hl). by apply freadp_ok. Qed.
Lemma copyp_arr n a b : arr_of n a -> arr_of n b -> copyp a b n = Some a.
Proof. intros (l & -> & Hl) (l' & -> & Hl'). apply copyp_ok; lia. Qed.
Lemma arr_of_fresh n x : 0 < n -> arr_of n (Some (fresh_arr n x)).
Proof. intros. eexists. split; [done|]. rewrite fresh_arr_length. lia. Qed.
Lemma arr_of_rnd n x : 0 < n -> arr_of n (Some (fresh_rnd n x)).
Proof. intros. eexists. split; [done|]. rewrite fresh_rnd_length. lia. Qed.
Lemma arr_of_seq n : 0 < n -> arr_of n (Some (Z.of_nat <$> seq 0 (Z.to_nat n))).
Proof. intros. eexists. split; [done|]. rewrite fmap_length, seq_length. lia. Qed.

Lemma save_fcl_ok f w : fcl_ok f -> save_fcl f w = Some (w ++ fcl_bytes f).
Proof.
  intros [Hr Hn Hw Hb Ha Hno He Hl]. destruct (rejected_inv _ Hr) as (Hi & Ho & Hio & Hff & _ & Hln).
  unfold save_fcl, fwrites, fcl_bytes. fold (fcl_header (f_cfg f)). set (c := f_cfg f) in *.
  rewrite (Z.mul_comm (f_out c)). rewrite (bool_decide_eq_true_2 (f_ff c <> ONLY_DROPOUT)) by done. cbn [mbind option_bind].
  rewrite (fwrite_arr _ (f_w f)) by done. cbn [mbind option_bind]. rewrite (fwrite_arr _ (f_b f)) by done. cbn [mbind option_bind].
  rewrite (fwrite_arr _ (f_active f)) by done. cbn [mbind option_bind].
  set (w1 := _ ++ arr_bytes (f_active f)).
  assert (Hx : (if bool_decide (f_mode c = NOISY) then w0 ← fwrite (f_nw f) (f_in c * f_out c) w1; fwrite (f_nb f) (f_out c) w0 else Some w1)
          = Some (w1 ++ arr_bytes (f_nw f) ++ arr_bytes (f_nb f))).
  { destruct (bool_decide (f_mode c = NOISY)).
    - destruct Hno. rewrite (fwrite_arr _ (f_nw f)) by done. cbn [mbind option_bind]. rewrite (fwrite_arr _ (f_nb f)) by done. by rewrite app_assoc.
    - destruct Hno as [-> ->]. cbn. by rewrite app_nil_r. }
  rewrite Hx. clear Hx. cbn [mbind option_bind]. set (w2 := w1 ++ _).
  assert (Hx : (if fcl_edge c then w0 ← fwrite (f_scores f) (f_in c * f_out c) w2; fwrite (f_indices f) (f_in c * f_out c) w0 else Some w2)
          = Some (w2 ++ arr_bytes (f_scores f) ++ arr_bytes (f_indices f))).
  { destruct (fcl_edge c).
    - destruct He. rewrite (fwrite_arr _ (f_scores f)) by done. cbn [mbind option_bind]. rewrite (fwrite_arr _ (f_indices f)) by done. by rewrite app_assoc.
    - destruct He as [-> ->]. cbn. by rewrite app_nil_r. }
  rewrite Hx. clear Hx. cbn [mbind option_bind]. set (w3 := w2 ++ _).
  transitivity (Some (w3 ++ default [] (bn_bytes <$> f_ln f))).
  - destruct (bool_decide (f_norm c = LAYER_NORMALIZATION)).
    + destruct Hl as (b & -> & Hb1 & _). by apply save_bn_ok.
    + rewrite Hl. cbn. by rewrite app_nil_r.
  - f_equal. subst w3 w2 w1. by rewrite <- !app_assoc.
Qed.

(** what the constructor makes of a configuration it made *)
Lemma fully_connected_ok rnd nz c : fcl_rejected c = false -> f_norm c <> GROUP_NORMALIZATION ->
  exists f, fully_connected rnd nz c = Some f /\ f_cfg f = c /\ f_k f = f1 /\ fcl_ok f.
Proof.
  intros Hr Hn. unfold fully_connected. rewrite Hr. rewrite (decide_False (P := f_norm c = GROUP_NORMALIZATION)) by done.
  replace (Fcfg _ _ _ _ _ _ _ _ _ _ _) with c by (by destruct c). cbv zeta.
  destruct (rejected_inv _ Hr) as (Hi & Ho & Hio & Hff & _ & Hln).
  rewrite (bool_decide_eq_true_2 (f_ff c <> ONLY_DROPOUT)) by done. cbn [andb].
  destruct (decide (f_norm c = LAYER_NORMALIZATION)) as [E|E].
  - destruct (Hln E) as [Hg1 Hg2]. unfold batch_normalization. rewrite decide_False by lia. cbn [mbind option_bind].
    eexists. split; [done|]. split; [done|]. split; [done|].
    constructor; cbn [f_cfg f_w f_b f_active f_nw f_nb f_scores f_indices f_ln]; try done;
      try (by first [apply arr_of_fresh|apply arr_of_rnd]).
    + destruct (bool_decide (f_mode c = NOISY)); [|done]. split; [by apply arr_of_rnd|by apply arr_of_fresh].
    + destruct (fcl_edge c); [|done]. split; [by apply arr_of_fresh|by apply arr_of_seq].
    + rewrite bool_decide_eq_true_2 by done. eexists. split; [done|]. split; [|done].
      eapply bn_reach; [exact Hg1|exact Hg2|done|done|apply fresh_arr_length|apply fresh_arr_length].
  - cbn [mbind option_bind]. eexists. split; [done|]. split; [done|]. split; [done|].
    constructor; cbn [f_cfg f_w f_b f_active f_nw f_nb f_scores f_indices f_ln]; try done;
      try (by first [apply arr_of_fresh|apply arr_of_rnd]).
    + destruct (bool_decide (f_mode c = NOISY)); [|done]. split; [by apply arr_of_rnd|by apply arr_of_fresh].
    + destruct (fcl_edge c); [|done]. split; [by apply arr_of_fresh|by apply arr_of_seq].
    + by rewrite bool_decide_eq_false_2 by done.
Qed.
Lemma paste_bn_ok b d : reach_bn b -> reach_bn d -> b_batch d = b_batch b -> b_dim d = b_dim b -> paste_bn b d = Some b.
Proof.
  intros (H1 & H2 & H3 & H4)%reach_bn_inv (H1' & H2' & H3' & H4')%reach_bn_inv E1 E2. unfold paste_bn.
  rewrite copy_ok by lia. cbn [mbind option_bind]. rewrite copy_ok by lia. cbn. rewrite E1, E2. by destruct b.
Qed.
Lemma bind_ok {A B} (m : option A) (f : A -> option B) a r : m = Some a -> f a = r -> m ≫= f = r.
Proof. by intros -> H. Qed.
Lemma load_fcl_ok rnd nz f w : fcl_ok f -> load_fcl rnd nz (fcl_bytes f ++ w) = Some (with_k f1 f, w).
Proof.
  intros [Hr Hn Hw Hb Ha Hno He Hl]. destruct (rejected_inv _ Hr) as (Hi & Ho & Hio & Hff & _ & Hln).
  destruct (fully_connected_ok rnd nz _ Hr Hn) as (g & Hg & Hgc & Hgk & [_ _ Hw' Hb' Ha' Hno' He' Hl']).
  rewrite Hgc in *.
  unfold load_fcl, fcl_bytes, fcl_header. set (c := f_cfg f) in *. rewrite <- !app_assoc.
  cbn -[freadp fully_connected fcl_edge copy_fcl_params copyp load_bn].
  fold (fcl_edge c). rewrite (bool_decide_eq_true_2 (f_ff c <> ONLY_DROPOUT)) by done. rewrite (Z.mul_comm (f_out c)).
  eapply bind_ok.
  { rewrite (freadp_arr _ (f_w f)) by done. cbn [mbind option_bind]. rewrite (freadp_arr _ (f_b f)) by done. cbn [mbind option_bind].
    rewrite (freadp_arr _ (f_active f)) by done. reflexivity. }
  cbv beta iota.
  eapply (bind_ok _ _ ((f_nw f, f_nb f), _)).
  { destruct (bool_decide (f_mode c = NOISY)).
    - destruct Hno. rewrite (freadp_arr _ (f_nw f)) by done. cbn [mbind option_bind]. rewrite (freadp_arr _ (f_nb f)) by done. reflexivity.
    - destruct Hno as [-> ->]. reflexivity. }
  cbv beta iota.
  eapply (bind_ok _ _ ((f_scores f, f_indices f), _)).
  { destruct (fcl_edge c).
    - destruct He. rewrite (freadp_arr _ (f_scores f)) by done. cbn [mbind option_bind]. rewrite (freadp_arr _ (f_indices f)) by done. reflexivity.
    - destruct He as [-> ->]. reflexivity. }
  cbv beta iota.
  eapply bind_ok.
  { transitivity (fully_connected rnd nz c); [by destruct c|exact Hg]. }
  cbv beta. cbn [fst snd].
  eapply (bind_ok _ _ (Fcl c f1 (f_w f) (f_b f) (f_active g) (f_nw f) (f_nb f) (f_scores g) (f_indices g) (f_ln g))).
  { unfold copy_fcl_params. rewrite Hgc. rewrite (bool_decide_eq_true_2 (f_ff c <> ONLY_DROPOUT)) by done.
    rewrite (copyp_arr _ (f_w f)), (copyp_arr _ (f_b f)) by done. cbn [mbind option_bind fst snd].
    eapply (bind_ok _ _ (f_nw f, f_nb f)); [|by rewrite Hgk].
    destruct (bool_decide (f_mode c = NOISY)).
    - destruct Hno, Hno'. by rewrite !copyp_arr by done.
    - destruct Hno as [-> ->], Hno' as [-> ->]. done. }
  cbv beta. cbn [f_cfg f_k f_w f_b f_active f_nw f_nb f_scores f_indices f_ln].
  eapply (bind_ok _ _ (f_scores f, f_indices f)).
  { destruct (fcl_edge c).
    - destruct He, He'. by rewrite !copyp_arr by done.
    - destruct He as [-> ->], He' as [-> ->]. done. }
  cbv beta. cbn [fst snd]. rewrite (bool_decide_eq_true_2 (f_ff c <> ONLY_DROPOUT)) by done. rewrite copyp_arr by done. cbn [mbind option_bind].
  destruct (bool_decide (f_norm c = LAYER_NORMALIZATION)).
  - destruct Hl as (b & Hfb & Hb1 & Hb2 & Hb3). destruct Hl' as (b' & Hfb' & Hb1' & Hb2' & Hb3'). rewrite Hfb, Hfb'. cbn [default fmap option_fmap option_map from_option id].
    rewrite load_bn_ok by done. cbn [mbind option_bind]. rewrite paste_bn_ok; [|done|done|congruence|congruence]. cbn.
    unfold with_k. by rewrite Hfb.
  - rewrite Hl, Hl'. cbn. unfold with_k. by rewrite Hl.
Qed.
Lemma round_trip_fcl rnd nz f : reach_fcl f -> round_trip_to save_fcl (load_fcl rnd nz) f (with_k f1 f).
Proof. intros H%reach_fcl_ok. exists (fcl_bytes f). split; intros; [by apply save_fcl_ok|by apply load_fcl_ok]. Qed.

(** * Convolutional layers *)
Lemma reject_inv b : reject b = Some tt -> b = false.
Proof. by destruct b. Qed.
Lemma checks_inv c : cl_checks c = Some tt -> 0 < c_n c /\ 0 < ksize c /\ 0 < c_n c * ksize c /\ 0 <= c_gchan c <= c_n c.
Proof.
  intros H. unfold cl_checks in H. apply bind_Some in H as ([] & H%reject_inv%bool_decide_eq_false & _).
  assert (0 < c_channels c /\ 0 < c_krows c /\ 0 < c_kcols c) as (H1 & H2 & H3) by lia.
  assert (0 < ksize c) by (unfold ksize; apply Z.mul_pos_pos; [apply Z.mul_pos_pos; done|done]).
  assert (0 < c_n c) by lia. split; [done|]. split; [done|]. split; [by apply Z.mul_pos_pos|lia].
Qed.
Lemma checks_no_group c : c_norm c <> GROUP_NORMALIZATION -> cl_checks c = Some tt -> cl_checks (no_group c) = Some tt.
Proof.
  intros Hn H. pose proof (checks_inv _ H) as (_ & _ & _ & Hg). unfold cl_checks in *.
  apply bind_Some in H as ([] & H1%reject_inv%bool_decide_eq_false & H).
  eapply bind_ok.
  { unfold reject. rewrite bool_decide_eq_false_2; [done|]. cbn. lia. }
  cbn [c_channels c_irows c_icols c_krows c_kcols c_n c_s1r c_s1c c_p1r c_p1c c_s2r c_s2c c_p2r c_p2c c_plr c_plc c_norm c_act c_pool
       c_gchan c_conv c_train c_ff c_layer no_group] in *.
  assert (Hf : bool_decide (c_conv c <> NO_CONVOLUTION /\ c_norm c = GROUP_NORMALIZATION) = false) by (apply bool_decide_eq_false_2; tauto).
  rewrite Hf in H |- *. exact H.
Qed.
Record cl_ok (f : cl) : Prop := {
  co_checks : cl_checks (c_cfg f) = Some tt;
  co_dims : cl_dims (c_cfg f) = Some (c_dim f);
  co_norm : c_norm (c_cfg f) <> GROUP_NORMALIZATION -> c_gchan (c_cfg f) = 0;
  co_kernels : if bool_decide (c_conv (c_cfg f) <> NO_CONVOLUTION) then
                 (exists ks, c_kernels f = Some ks /\ Z.of_nat (length ks) = c_n (c_cfg f)
                             /\ Forall (fun k => Z.of_nat (length k) = ksize (c_cfg f)) ks)
                 /\ arr_of (c_n (c_cfg f)) (c_biases f)
               else c_kernels f = None /\ c_biases f = None;
  co_edge : if cl_edge (c_cfg f) then arr_of (c_n (c_cfg f) * ksize (c_cfg f)) (c_scores f) /\ arr_of (c_n (c_cfg f) * ksize (c_cfg f)) (c_indices f)
            else c_scores f = None /\ c_indices f = None;
  co_used : Z.of_nat (length (c_used f)) = c_n (c_cfg f);
  co_group : if bool_decide (c_norm (c_cfg f) = GROUP_NORMALIZATION) then
               exists g, c_group f = Some g /\ quot (c_n (c_cfg f)) (c_gchan (c_cfg f)) = Some (Z.of_nat (length g)) /\ Forall reach_bn g
                         /\ batch_normalization (c_gchan (c_cfg f)) (cl_group_size (c_cfg f) (c_dim f)) <> None
             else c_group f = None }.
Lemma convolutional_ok rnd ind c f g : convolutional rnd ind c = Some g -> cl_like f g -> cl_ok f.
Proof.
  intros H (Hc & Hd & Hk & Hb & Hs & Hi & Hu & Hg). unfold convolutional in H.
  apply bind_Some in H as ([] & Hch & H). apply bind_Some in H as (d & Hdim & H). apply bind_Some in H as (gr & Hgr & [= <-]).
  pose proof (checks_inv _ Hch) as (Hn & Hks & Hnk & Hgc). cbn [c_cfg c_dim c_kernels c_biases c_scores c_indices c_used c_group] in *.
  assert (E : forall P : ccfg -> Prop, P c -> P (no_group c) -> P (c_cfg f)).
  { intros P H1 H2. rewrite Hc. by destruct (bool_decide _). }
  assert (E1 : ksize (c_cfg f) = ksize c) by (by apply E).
  assert (E2 : c_n (c_cfg f) = c_n c) by (by apply E).
  assert (E3 : c_conv (c_cfg f) = c_conv c) by (by apply E).
  assert (E4 : cl_edge (c_cfg f) = cl_edge c) by (by apply E).
  assert (E5 : c_norm (c_cfg f) = c_norm c) by (by apply E).
  constructor; rewrite ?E1, ?E2, ?E3, ?E4, ?E5.
  - rewrite Hc. destruct (bool_decide _) eqn:Eb; [|done]. apply bool_decide_eq_true in Eb. by apply checks_no_group.
  - rewrite Hd, Hc. by destruct (bool_decide _).
  - intros Hne. rewrite Hc, bool_decide_eq_true_2 by done. done.
  - destruct (bool_decide (c_conv c <> NO_CONVOLUTION)).
    + split; [|by eapply same_size_of; [exact Hb|apply fresh_arr_length|]].
      destruct (c_kernels f) as [ks|]; [|done]. exists ks. split; [done|]. split.
      * apply Forall2_length in Hk. rewrite Hk, fmap_length, seq_length. lia.
      * apply list.Forall_forall. intros k (i & Hk')%elem_of_list_lookup. destruct (Forall2_lookup_l _ _ _ _ _ Hk Hk') as (k0 & Hk0 & El).
        rewrite El. apply list_lookup_fmap_inv in Hk0 as (? & -> & _). rewrite fresh_rnd_length. lia.
    + split; [|by apply same_size_None]. by destruct (c_kernels f).
  - destruct (cl_edge c); [|split; by apply same_size_None].
    split; eapply same_size_of; [exact Hs|apply fresh_arr_length|done|exact Hi|apply fresh_rnd_length|done].
  - rewrite Hu, fresh_arr_length. lia.
  - destruct (decide (c_norm c = GROUP_NORMALIZATION)) as [En|En].
    + rewrite bool_decide_eq_true_2 by done. rewrite bool_decide_eq_false_2 in Hgr, Hc by tauto.
      apply bind_Some in Hgr as (m & Hm & Hgr). apply bind_Some in Hgr as (b & Hbn & [= <-]).
      destruct (c_group f) as [gl|]; [|done]. exists gl. split; [done|]. rewrite Hc, Hd, Hm.
      pose proof (Forall2_length _ _ _ Hg) as Hlen. rewrite replicate_length in Hlen.
      split; [|split; [|congruence]].
      * f_equal. rewrite Hlen. unfold quot in Hm. case_decide; [done|]. injection Hm as <-.
        assert (0 <= Z.quot (c_n c) (c_gchan c)) by (apply Z.quot_pos; lia). lia.
      * apply list.Forall_forall. intros x (i & Hx)%elem_of_list_lookup. destruct (Forall2_lookup_l _ _ _ _ _ Hg Hx) as (b' & Hb' & El).
        apply lookup_replicate in Hb' as [-> _]. by exists (c_gchan c), (cl_group_size c d), b.
    + rewrite bool_decide_eq_false_2 by done. rewrite bool_decide_eq_true_2 in Hgr by done. injection Hgr as <-. by destruct (c_group f).
Qed.
Lemma cl_like_refl f : cl_like f f.
Proof.
  repeat split; try done.
  - destruct (c_kernels f) as [l|]; [|done]. induction l; by constructor.
  - destruct (c_group f) as [l|]; [|done]. induction l; by constructor.
Qed.
Lemma reach_cl_ok f : reach_cl f -> cl_ok f.
Proof. intros (rnd & ind & c & g & H & Hl). by eapply convolutional_ok. Qed.

Lemma convolutional_total rnd ind c d : cl_checks c = Some tt -> cl_dims c = Some d -> (c_norm c <> GROUP_NORMALIZATION -> c_gchan c = 0) ->
  (c_norm c = GROUP_NORMALIZATION -> quot (c_n c) (c_gchan c) <> None /\ batch_normalization (c_gchan c) (cl_group_size c d) <> None) ->
  exists f, convolutional rnd ind c = Some f /\ c_cfg f = c /\ c_dim f = d /\ c_k f = f1 /\ cl_ok f.
Proof.
  intros Hch Hd Hn Hg.
  assert (exists f, convolutional rnd ind c = Some f /\ c_cfg f = c /\ c_dim f = d /\ c_k f = f1) as (f & H & Hrest).
  { unfold convolutional. rewrite Hch, Hd. cbn [mbind option_bind].
    destruct (decide (c_norm c = GROUP_NORMALIZATION)) as [En|En].
    - rewrite bool_decide_eq_false_2 by tauto. destruct (Hg En) as [H1 H2]. destruct (quot _ _) as [m|]; [|done].
      destruct (batch_normalization _ _) as [b|]; [|done]. cbn [mbind option_bind]. by eexists.
    - rewrite bool_decide_eq_true_2 by done. cbn [mbind option_bind]. eexists. split; [done|]. cbn. split; [|done].
      unfold no_group. rewrite <- (Hn En). by destruct c. }
  exists f. destruct Hrest as (? & ? & ?). repeat split; try done; by apply (convolutional_ok _ _ _ _ _ H (cl_like_refl f)).
Qed.

Definition cl_header (f : cl) : file :=
  let c := c_cfg f in let d := c_dim f in
  [c_k f; c_ff c; c_train c; c_gchan c; c_conv c; c_channels c; c_irows c; c_icols c; c_layer c; c_krows c; c_kcols c; c_n c;
               c_s1r c; c_s1c c; c_p1r c; c_p1c c; c_s2r c; c_s2c c; c_p2r c; c_p2c c; c_plr c; c_plc c; c_norm c; c_act c; c_pool c;
               c_rows1 d; c_cols1 d; c_rows2 d; c_cols2 d].
Definition cl_bytes (f : cl) : file :=
  cl_header f ++ (concat (default [] (c_kernels f)) ++ arr_bytes (c_biases f)) ++ (arr_bytes (c_scores f) ++ arr_bytes (c_indices f))
  ++ c_used f ++ concat (bn_bytes <$> default [] (c_group f)).
Lemma save_kernels n ks w : 0 < n -> Forall (fun k => Z.of_nat (length k) = n) ks ->
  save_all (Z.of_nat (length ks)) ks (fun k w => fwrite (Some k) n w) w = Some (w ++ concat ks).
Proof.
  intros Hn H. apply save_all_ok. induction H as [|k ks Hk _ IH]; constructor; [|done]. intros w'. by apply fwrite_ok.
Qed.
Lemma load_kernels n ks w : 0 < n -> Forall (fun k => Z.of_nat (length k) = n) ks ->
  load_all (Z.of_nat (length ks)) (fread n) (concat ks ++ w) = Some (ks, w).
Proof.
  intros Hn H. apply load_all_ok. induction H as [|k ks Hk _ IH]; constructor; [|done]. intros w'. by apply fread_ok.
Qed.
Lemma save_bns g w : Forall reach_bn g -> save_all (Z.of_nat (length g)) g save_bn w = Some (w ++ concat (bn_bytes <$> g)).
Proof.
  intros H. apply save_all_ok. induction H as [|k ks Hk _ IH]; constructor; [|done]. intros w'. by apply save_bn_ok.
Qed.
Lemma load_bns g w : Forall reach_bn g -> load_all (Z.of_nat (length g)) load_bn (concat (bn_bytes <$> g) ++ w) = Some (g, w).
Proof.
  intros H. apply load_all_ok. induction H as [|k ks Hk _ IH]; constructor; [|done]. intros w'. by apply load_bn_ok.
Qed.
Lemma fread_arr n a w : 0 < n -> arr_of n a -> fread n (arr_bytes a ++ w) = Some (arr_bytes a, w).
Proof. intros Hn (l & -> & Hl). by apply fread_ok. Qed.
Lemma arr_of_Some n a : arr_of n a -> a = Some (arr_bytes a).
Proof. by intros (l & -> & _). Qed.

Lemma save_cl_ok f w : cl_ok f -> save_cl f w = Some (w ++ cl_bytes f).
Proof.
  intros [Hch Hd Hn Hk He Hu Hg]. destruct (checks_inv _ Hch) as (H1 & H2 & H3 & H4).
  unfold save_cl, fwrites, cl_bytes. cbv zeta. fold (cl_header f). cbn [mbind option_bind]. set (c := c_cfg f) in *. set (w1 := w ++ cl_header f).
  eapply (bind_ok _ _ (w1 ++ concat (default [] (c_kernels f)) ++ arr_bytes (c_biases f))).
  { destruct (bool_decide (c_conv c <> NO_CONVOLUTION)).
    - destruct Hk as [(ks & -> & Hl & Hks) Hb]. rewrite <- Hl in Hb |- *. cbn [mbind option_bind]. rewrite save_kernels by done. cbn [mbind option_bind].
      rewrite fwrite_arr by (done || lia). by rewrite <- app_assoc.
    - destruct Hk as [-> ->]. cbn. by rewrite app_nil_r. }
  set (w2 := w1 ++ _). eapply (bind_ok _ _ (w2 ++ arr_bytes (c_scores f) ++ arr_bytes (c_indices f))).
  { destruct (cl_edge c).
    - destruct He. rewrite fwrite_arr by done. cbn [mbind option_bind]. rewrite fwrite_arr by done. by rewrite <- app_assoc.
    - destruct He as [-> ->]. cbn. by rewrite app_nil_r. }
  set (w3 := w2 ++ _). rewrite fwrite_ok by done. cbn [mbind option_bind].
  transitivity (Some ((w3 ++ c_used f) ++ concat (bn_bytes <$> default [] (c_group f)))).
  - destruct (bool_decide (c_norm c = GROUP_NORMALIZATION)).
    + destruct Hg as (g & -> & -> & Hg & _). cbn [mbind option_bind]. by apply save_bns.
    + rewrite Hg. cbn. by rewrite app_nil_r.
  - subst w3 w2 w1. by rewrite <- !app_assoc.
Qed.
Lemma copy_kernels n ks ks' : length ks' = length ks -> Forall (fun k => Z.of_nat (length k) = n) ks -> Forall (fun k => Z.of_nat (length k) = n) ks' ->
  for_loop (length ks) 0 (fun i a => s ← rd ks i; d ← rd a i; d ← copy_array s d n; wr a i d) ks' = Some ks.
Proof.
  intros Hl H H'.
  destruct (for_loop_inv (fun i a => a = take i ks ++ drop i ks') (fun i a => s ← rd ks i; d ← rd a i; d ← copy_array s d n; wr a i d)
             (length ks) 0 ks') as (a & -> & ->).
  - done.
  - intros i a Hi ->. destruct (lookup_lt_is_Some_2 ks i ltac:(lia)) as [k Hk]. destruct (lookup_lt_is_Some_2 ks' i ltac:(lia)) as [k' Hk'].
    assert (Hti : length (take i ks) = i) by (rewrite take_length; lia).
    unfold rd. rewrite Hk. cbn [mbind option_bind]. rewrite lookup_app_r by lia. rewrite Hti, Nat.sub_diag, lookup_drop, Nat.add_0_r, Hk'.
    cbn [mbind option_bind]. pose proof (Forall_lookup_1 _ _ _ _ H Hk) as E1. pose proof (Forall_lookup_1 _ _ _ _ H' Hk') as E2. cbn in E1, E2.
    rewrite copy_ok by lia. cbn [mbind option_bind]. rewrite wr_Some by (rewrite app_length, Hti, drop_length; lia). eexists. split; [done|].
    rewrite (take_S_r _ _ _ Hk), (drop_S _ _ _ Hk'). rewrite <- app_assoc. rewrite insert_app_r_alt by lia. by rewrite Hti, Nat.sub_diag.
  - cbn [Nat.add]. rewrite take_ge, drop_ge, app_nil_r by lia. done.
Qed.
Lemma load_cl_ok rnd ind f w : cl_ok f -> load_cl rnd ind (cl_bytes f ++ w) = Some (f, w).
Proof.
  intros [Hch Hd Hn Hk He Hu Hg]. destruct (checks_inv _ Hch) as (H1 & H2 & H3 & H4).
  destruct (convolutional_total rnd ind (c_cfg f) (c_dim f)) as (g & Hcon & Hgc & Hgd & Hgk & [_ _ _ Hk' He' Hu' Hg']); [done|done|done| |].
  { intros En. rewrite bool_decide_eq_true_2 in Hg by done. destruct Hg as (gl & _ & -> & _ & Hb). done. }
  rewrite Hgc, ?Hgd in *. unfold load_cl, cl_bytes, cl_header. rewrite <- !app_assoc. set (c := c_cfg f) in *. cbv zeta.
  cbn -[fread load_all cl_edge convolutional copy_cl_params copyp copy_array ksize quot].
  replace (Ccfg _ _ _ _ _ _ _ _ _ _ _ _ _ _ _ _ _ _ _ _ _ _ _ _) with c by (by destruct c).
  eapply (bind_ok _ _ ((default [] (c_kernels f), arr_bytes (c_biases f)), _)).
  { destruct (bool_decide (c_conv c <> NO_CONVOLUTION)).
    - destruct Hk as [(ks & -> & Hl & Hks) Hb]. rewrite <- Hl in Hb |- *. cbn [default from_option id]. rewrite load_kernels by done. cbn [mbind option_bind].
      rewrite fread_arr by (done || lia). reflexivity.
    - destruct Hk as [-> ->]. reflexivity. }
  cbv beta iota.
  eapply (bind_ok _ _ ((arr_bytes (c_scores f), arr_bytes (c_indices f)), _)).
  { destruct (cl_edge c).
    - destruct He. rewrite fread_arr by done. cbn [mbind option_bind]. rewrite fread_arr by done. reflexivity.
    - destruct He as [-> ->]. reflexivity. }
  cbv beta iota. rewrite fread_ok by done. cbn [mbind option_bind].
  eapply (bind_ok _ _ (c_group f, w)).
  { destruct (bool_decide (c_norm c = GROUP_NORMALIZATION)).
    - destruct Hg as (gl & -> & -> & Hgl & _). cbn [mbind option_bind default from_option id]. rewrite load_bns by done. done.
    - rewrite Hg. done. }
  cbv beta iota. rewrite Hcon. cbn [mbind option_bind fst snd].
  eapply (bind_ok _ _ (Cl c (c_dim f) f1 (c_kernels f) (c_biases f) (c_scores g) (c_indices g) (c_used g) (c_group g))).
  { destruct (bool_decide (c_conv c <> NO_CONVOLUTION)).
    - destruct Hk as [(ks & -> & Hl & Hks) Hb]. destruct Hk' as [(ks' & Eks' & Hl' & Hks') Hb']. unfold copy_cl_params. rewrite Hgc, Eks'. cbn [mbind option_bind].
      replace (Z.to_nat (c_n c)) with (length ks) by lia. cbn [default from_option id].
      rewrite copy_kernels by (done || lia). cbn [mbind option_bind]. rewrite <- (arr_of_Some _ _ Hb). rewrite copyp_arr by done.
      cbn. by rewrite Hgd, Hgk.
    - destruct Hk as [-> ->]. destruct Hk' as [Ek Eb]. rewrite <- Hgc, <- Hgd, <- Hgk, <- Ek, <- Eb. by destruct g. }
  cbv beta. cbn [c_cfg c_dim c_kernels c_biases c_scores c_indices c_used c_group].
  eapply (bind_ok _ _ (c_scores f, c_indices f)).
  { destruct (cl_edge c).
    - destruct He, He'. rewrite <- !(arr_of_Some (c_n c * ksize c)) by done. rewrite !copyp_arr by done. done.
    - destruct He as [-> ->], He' as [-> ->]. done. }
  cbv beta. rewrite copy_ok by lia. cbn [mbind option_bind fst snd].
  destruct (bool_decide (c_norm c = GROUP_NORMALIZATION)); [by destruct f|]. rewrite Hg', <- Hg. by destruct f.
Qed.
Lemma round_trip_cl rnd ind f : reach_cl f -> round_trip save_cl (load_cl rnd ind) f.
Proof. intros H%reach_cl_ok. exists (cl_bytes f). split; intros; [by apply save_cl_ok|by apply load_cl_ok]. Qed.

(** * Residual layers *)
Lemma round_trip_rl rnd ind r : reach_rl r -> round_trip save_rl (load_rl rnd ind) r.
Proof.
  intros [(r0 & Hr) Hc].
  destruct (round_trip_list save_cl (load_cl rnd ind) (r_cls r) id) as (bs & H1 & H2).
  { eapply list.Forall_impl; [exact Hc|]. intros f Hf. by apply round_trip_cl. }
  exists ([r_act r; r_channels r; r_rows r; r_cols r; Z.of_nat (length (r_cls r))] ++ bs). split.
  - intros w. unfold save_rl, fwrites. cbn [mbind option_bind]. rewrite H1. by rewrite <- app_assoc.
  - intros rest. unfold load_rl. cbn -[load_all residual Z.of_nat]. rewrite H2, list_fmap_id. cbn [mbind option_bind].
    unfold residual in *. case_decide; [done|]. cbn. by destruct r.
Qed.

(** * The exchange sort *)
Lemma insert_middle {A} (l1 l2 : list A) x y : <[length l1 := y]> (l1 ++ x :: l2) = l1 ++ y :: l2.
Proof. rewrite insert_app_r_alt by lia. by rewrite Nat.sub_diag. Qed.
Lemma swap_perm {A} (a : list A) i j x y : (i < j)%nat -> a !! i = Some x -> a !! j = Some y -> <[j := x]> (<[i := y]> a) ≡ₚ a.
Proof.
  intros Hij Hx Hy. destruct (elem_of_list_split_length _ _ _ Hx) as (l1 & l2 & -> & ->). rewrite insert_middle.
  rewrite lookup_app_r in Hy by lia. destruct (j - length l1)%nat as [|k] eqn:E; [lia|]. cbn in Hy.
  destruct (elem_of_list_split_length _ _ _ Hy) as (l3 & l4 & -> & ->).
  replace j with (length (l1 ++ y :: l3)) by (rewrite app_length; cbn; lia).
  replace (l1 ++ y :: l3 ++ y :: l4) with ((l1 ++ y :: l3) ++ y :: l4) by (by rewrite <- app_assoc).
  rewrite insert_middle. rewrite <- app_assoc. apply Permutation_app_head. cbn.
  rewrite <- !Permutation_middle. apply Permutation_swap.
Qed.
Lemma sorted_lookup {A} (key : A -> Z) l : sorted_by key l <-> forall p q x y, (p < q)%nat -> l !! p = Some x -> l !! q = Some y -> key x <= key y.
Proof.
  unfold sorted_by. induction l as [|a l IH]; cbn.
  - split; [intros _ p q x y _ [=]|constructor].
  - split.
    + intros H p q x y Hpq. apply StronglySorted_inv in H as [H1 H2]. destruct q as [|q]; [lia|]. destruct p as [|p]; cbn.
      * intros [= ->] Hq. rewrite list.Forall_forall in H2. apply H2. apply elem_of_list_fmap. exists y. split; [done|by eapply elem_of_list_lookup_2].
      * apply (proj1 IH H1). lia.
    + intros H. constructor.
      * apply IH. intros p q x y Hpq. apply (H (S p) (S q)). lia.
      * apply list.Forall_forall. intros k (x & -> & (q & Hq)%elem_of_list_lookup)%elem_of_list_fmap. by apply (H O (S q) a x); [lia| |].
Qed.
Section xsort.
  Context {A : Type} (key : A -> Z) (l : list A).
  Let step (i : nat) := fun (j : nat) (a : list A) => x ← rd a i; y ← rd a j; if decide (key x > key y) then a ← wr a i y; wr a j x else Some a.
  Lemma xsort_ok : exists l', xsort key l = Some l' /\ l' ≡ₚ l /\ sorted_by key l'.
  Proof.
    unfold xsort.
    destruct (for_loop_inv (fun i a => a ≡ₚ l /\ forall p q x y, (p < i)%nat -> (p < q)%nat -> a !! p = Some x -> a !! q = Some y -> key x <= key y)
      (fun i a => for_loop (length l - S i) (S i) (step i) a) (length l) 0 l) as (l' & E & Hp & Hs).
    - split; [done|lia].
    - intros i a Hi [Hp Hs]. pose proof (Permutation_length Hp) as Hlen.
      destruct (for_loop_inv (fun j a' => a' ≡ₚ l
          /\ (forall p q x y, (p < i)%nat -> (p < q)%nat -> a' !! p = Some x -> a' !! q = Some y -> key x <= key y)
          /\ (forall q x y, (i < q < j)%nat -> a' !! i = Some x -> a' !! q = Some y -> key x <= key y)) (step i) (length l - S i) (S i) a) as (a' & E & Hp' & Hs' & Hi').
      + split; [done|]. split; [done|lia].
      + intros j b Hj (Hb1 & Hb2 & Hb3). pose proof (Permutation_length Hb1) as Hlb.
        destruct (lookup_lt_is_Some_2 b i ltac:(lia)) as [x Hx]. destruct (lookup_lt_is_Some_2 b j ltac:(lia)) as [y Hy].
        unfold step, rd. rewrite Hx, Hy. cbn [mbind option_bind]. case_decide as Hk.
        * rewrite wr_Some by lia. cbn [mbind option_bind]. rewrite wr_Some by (rewrite insert_length; lia). eexists. split; [done|].
          assert (Hlk : forall q, (<[j := x]> (<[i := y]> b)) !! q = if decide (q = j) then Some x else if decide (q = i) then Some y else b !! q).
          { intros q. case_decide as Hq1; [subst q; rewrite list_lookup_insert; [done|rewrite insert_length; lia]|].
            rewrite list_lookup_insert_ne by done. case_decide as Hq2; [subst q; rewrite list_lookup_insert; [done|lia]|].
            by rewrite list_lookup_insert_ne by done. }
          split; [rewrite swap_perm; [done|lia|done|done]|]. split.
          -- intros p q u v Hpi Hpq. rewrite !Hlk. rewrite (decide_False (P := p = j)), (decide_False (P := p = i)) by lia.
             intros Hu. case_decide; [intros [= <-]; apply (Hb2 p i); [lia|lia|done|done]|].
             case_decide; [intros [= <-]; apply (Hb2 p j); [lia|lia|done|done]|]. intros Hv. by apply (Hb2 p q).
          -- intros q u v Hq. rewrite !Hlk. rewrite (decide_False (P := i = j)), (decide_True (P := i = i)) by lia. intros [= <-].
             case_decide; [intros [= <-]; lia|]. rewrite decide_False by lia. intros Hv.
             assert (key x <= key v) by (apply (Hb3 q); [lia|done|done]). lia.
        * eexists. split; [done|]. split; [done|]. split; [done|].
          intros q u v Hq Hu Hv. destruct (decide (q = j)) as [->|]; [|apply (Hb3 q); [lia|done|done]].
          rewrite Hx in Hu. rewrite Hy in Hv. injection Hu as <-. injection Hv as <-. lia.
      + exists a'. split; [done|]. split; [done|]. intros p q x y Hpi Hpq Hx Hy.
        destruct (decide (p = i)) as [->|]; [|apply (Hs' p q); [lia|done|done|done]].
        apply (Hi' q); [|done|done]. apply lookup_lt_Some in Hy. rewrite Hp' in Hy. lia.
    - exists l'. split; [done|]. split; [done|]. apply sorted_lookup. intros p q x y Hpq Hx Hy. apply (Hs p q); [|done|done|done].
      apply lookup_lt_Some in Hx. rewrite Hp in Hx. cbn. lia.
  Qed.
  Lemma xsort_sorted : sorted_by key l -> xsort key l = Some l.
  Proof.
    intros H. rewrite sorted_lookup in H. unfold xsort.
    destruct (for_loop_inv (fun _ a => a = l) (fun i a => for_loop (length l - S i) (S i) (step i) a) (length l) 0 l) as (l' & E & ->); [done| |done].
    intros i a Hi ->.
    destruct (for_loop_inv (fun _ a => a = l) (step i) (length l - S i) (S i) l) as (l' & E & ->); [done| |by exists l].
    intros j a Hj ->. exists l. split; [|done]. unfold step, rd.
    destruct (lookup_lt_is_Some_2 l i ltac:(lia)) as [x Hx]. destruct (lookup_lt_is_Some_2 l j ltac:(lia)) as [y Hy]. rewrite Hx, Hy. cbn [mbind option_bind].
    rewrite decide_False; [done|]. assert (key x <= key y) by (apply (H i j); [lia|done|done]). lia.
  Qed.
End xsort.

(** * Networks *)
Lemma cl_like_trans f g h : cl_like f g -> cl_like g h -> cl_like f h.
Proof.
  unfold cl_like, same_size. intros (A1 & A2 & A3 & A4 & A5 & A6 & A7 & A8) (B1 & B2 & B3 & B4 & B5 & B6 & B7 & B8).
  repeat split; try congruence.
  - destruct (c_kernels f), (c_kernels g), (c_kernels h); try done. eapply Forall2_transitive; [|exact A3|exact B3]. cbn. congruence.
  - destruct (c_group f), (c_group g), (c_group h); try done. eapply Forall2_transitive; [|exact A8|exact B8]. unfold bn_like. intros. naive_solver congruence.
Qed.
Lemma fcl_like_trans f g h : fcl_like f g -> fcl_like g h -> fcl_like f h.
Proof.
  unfold fcl_like, same_size. intros (A1 & A2 & A3 & A4 & A5 & A6 & A7 & A8 & A9) (B1 & B2 & B3 & B4 & B5 & B6 & B7 & B8 & B9).
  repeat split; try congruence.
  destruct (f_ln f), (f_ln g), (f_ln h); try done. unfold bn_like in *. naive_solver congruence.
Qed.
Lemma reach_cl_like f g : cl_like f g -> reach_cl g -> reach_cl f.
Proof. intros H (r & i & c & h & H1 & H2). exists r, i, c, h. split; [done|]. by eapply cl_like_trans. Qed.
Lemma reach_fcl_like f g : fcl_like f g -> reach_fcl g -> reach_fcl f.
Proof. intros H (r & i & c & h & H1 & H2). exists r, i, c, h. split; [done|]. by eapply fcl_like_trans. Qed.
Lemma reach_cls_like l l' : Forall2 cl_like l l' -> Forall reach_cl l' -> Forall reach_cl l.
Proof. intros H. induction H as [|x y l l' H _ IH]; [done|]. intros [H1 H2]%list.Forall_cons. constructor; [by eapply reach_cl_like|by apply IH]. Qed.
Lemma reach_fcls_like l l' : Forall2 fcl_like l l' -> Forall reach_fcl l' -> Forall reach_fcl l.
Proof. intros H. induction H as [|x y l l' H _ IH]; [done|]. intros [H1 H2]%list.Forall_cons. constructor; [by eapply reach_fcl_like|by apply IH]. Qed.
Lemma reach_rl_like r s : rl_like r s -> reach_rl s -> reach_rl r.
Proof.
  intros (E1 & E2 & E3 & H) [(r0 & Hr) Hc]. split; [|by eapply reach_cls_like].
  unfold residual in *. rewrite E1, E2, E3. case_decide as Hd; [done|]. rewrite decide_False; [by eexists|].
  intros [?|[?|[?|E]]]; apply Hd; [tauto|tauto|tauto|]. right. right. right. rewrite E in H. by inversion H.
Qed.
Lemma reach_rls_like l l' : Forall2 rl_like l l' -> Forall reach_rl l' -> Forall reach_rl l.
Proof. intros H. induction H as [|x y l l' H _ IH]; [done|]. intros [H1 H2]%list.Forall_cons. constructor; [by eapply reach_rl_like|by apply IH]. Qed.
Lemma fmap_like {A B} (R : A -> A -> Prop) (f : A -> B) l l' : (forall x y, R x y -> f x = f y) -> Forall2 R l l' -> f <$> l = f <$> l'.
Proof. intros Hf H. induction H as [|x y l l' H _ IH]; [done|]. cbn. by rewrite (Hf _ _ H), IH. Qed.
Lemma cl_like_shape f g : cl_like f g -> cshape f = cshape g.
Proof. intros (H1 & H2 & _). unfold cshape. congruence. Qed.
Lemma rl_like_shape r s : rl_like r s -> rshape r = rshape s.
Proof. intros (H1 & H2 & H3 & H4). unfold rshape. by rewrite H1, H2, H3, (fmap_like _ _ _ _ cl_like_shape H4). Qed.
Lemma sorted_like {A} (R : A -> A -> Prop) (f : A -> Z) l l' : (forall x y, R x y -> f x = f y) -> Forall2 R l l' -> sorted_by f l' -> sorted_by f l.
Proof. intros Hf H. unfold sorted_by. by rewrite (fmap_like _ _ _ _ Hf H). Qed.
Lemma rl_like_first r s : rl_like r s -> rl_first r = rl_first s.
Proof. intros (_ & _ & _ & H). unfold rl_first. destruct H as [|x y l l' H _]; [done|]. unfold cl_layer. by rewrite (proj1 H). Qed.
Lemma cl_like_layer f g : cl_like f g -> cl_layer f = cl_layer g.
Proof. intros (H & _). unfold cl_layer. congruence. Qed.
Lemma fcl_like_layer f g : fcl_like f g -> fcl_layer f = fcl_layer g.
Proof. intros (H & _). unfold fcl_layer. congruence. Qed.
Lemma sort_rls_id rls : Forall (fun r => sorted_by cl_layer (r_cls r)) rls ->
  mapM (fun r => cls ← xsort cl_layer (r_cls r); Some (Rl (r_act r) (r_channels r) (r_rows r) (r_cols r) cls)) rls = Some rls.
Proof.
  intros H. induction H as [|r rls Hr _ IH]; [done|]. cbn. rewrite xsort_sorted by done. cbn. rewrite IH. cbn. by destruct r.
Qed.
Lemma sorted_rls_like l l' : Forall2 rl_like l l' -> Forall (fun r => sorted_by cl_layer (r_cls r)) l' -> Forall (fun r => sorted_by cl_layer (r_cls r)) l.
Proof.
  intros H. induction H as [|x y l l' H _ IH]; [done|]. intros [H1 H2]%list.Forall_cons. constructor; [|by apply IH].
  destruct H as (_ & _ & _ & H). by apply (sorted_like _ _ _ _ cl_like_layer H).
Qed.

Lemma with_k_like k f : fcl_like (with_k k f) f.
Proof. unfold fcl_like, same_size. repeat split; try done. cbn. by destruct (f_ln f). Qed.
Lemma Forall2_fmap_l_like {A} (R : A -> A -> Prop) (f : A -> A) l : (forall x, R (f x) x) -> Forall2 R (f <$> l) l.
Proof. intros H. induction l; constructor; auto. Qed.
(** what network() accepts once, it accepts again, trained or not, and leaves in the same order *)
Lemma network_again layers rls cls fcls m m0 : Forall (fun r => sorted_by cl_layer (r_cls r)) rls -> network layers rls cls fcls = Some m0 ->
  model_like m m0 -> network (m_layers m) (m_rls m) (m_cls m) (m_fcls m) = Some m.
Proof.
  intros Hso H (E1 & Lr & Lc & Lf). unfold network in H.
  apply bind_Some in H as ([] & H1%reject_inv%bool_decide_eq_false & H). apply bind_Some in H as ([] & H2%reject_inv & H).
  apply negb_false_iff in H2. rewrite sort_rls_id in H by done. cbn [mbind option_bind] in H.
  destruct (xsort_ok rl_first rls) as (rls' & Er & Pr & Sr). destruct (xsort_ok cl_layer cls) as (cls' & Ec & Pc & Sc).
  destruct (xsort_ok fcl_layer fcls) as (fcls' & Ef & Pf & Sf). rewrite Er, Ec, Ef in H. cbn [mbind option_bind] in H.
  apply bind_Some in H as ([] & Hch & [= <-]). cbn [m_layers m_rls m_cls m_fcls] in *.
  pose proof (fmap_like _ _ _ _ rl_like_shape Lr) as Fr. pose proof (fmap_like _ _ _ _ cl_like_shape Lc) as Fc.
  assert (Ff : f_cfg <$> m_fcls m = f_cfg <$> fcls') by (eapply fmap_like; [|exact Lf]; intros x y Hxy; apply Hxy).
  unfold network. rewrite Fr, E1.
  eapply bind_ok.
  { unfold reject. rewrite bool_decide_eq_false_2; [reflexivity|]. intros [Hx|(Hx1 & Hx2 & Hx3)]; apply H1; [by left|right].
    rewrite Hx1 in Lr. rewrite Hx2 in Lc. rewrite Hx3 in Lf. apply Forall2_nil_inv_l in Lr, Lc, Lf. subst.
    apply Permutation_nil_l in Pr, Pc, Pf. done. }
  eapply bind_ok.
  { unfold reject. replace (forallb _ _) with true; [reflexivity|]. symmetry. apply forallb_forall. intros x Hx. rewrite forallb_forall in H2.
    apply H2. apply elem_of_list_In. apply elem_of_list_In in Hx. by rewrite <- Pr. }
  assert (Hso' : Forall (fun r => sorted_by cl_layer (r_cls r)) (m_rls m)).
  { eapply sorted_rls_like; [exact Lr|]. by rewrite Pr. }
  rewrite sort_rls_id by done. cbn [mbind option_bind].
  rewrite (xsort_sorted rl_first) by (eapply sorted_like; [apply rl_like_first|exact Lr|done]). cbn [mbind option_bind].
  rewrite (xsort_sorted cl_layer) by (eapply sorted_like; [apply cl_like_layer|exact Lc|done]). cbn [mbind option_bind].
  rewrite (xsort_sorted fcl_layer) by (eapply sorted_like; [apply fcl_like_layer|exact Lf|done]). cbn [mbind option_bind].
  rewrite Fr, Fc, Ff, Hch. cbn. rewrite <- E1. by destruct m.
Qed.
Lemma rl_like_refl r : rl_like r r.
Proof. repeat split; try done. induction (r_cls r); constructor; [apply cl_like_refl|done]. Qed.
Lemma model_like_k k m m0 : model_like m m0 -> model_like (model_with_k k m) m0.
Proof.
  intros (H1 & H2 & H3 & H4). repeat split; try done. cbn. clear -H4. induction H4 as [|x y l l' H _ IH]; constructor; [|done].
  eapply fcl_like_trans; [apply with_k_like|done].
Qed.
Lemma reach_model_layers m : reach_model m -> Forall reach_rl (m_rls m) /\ Forall reach_cl (m_cls m) /\ Forall reach_fcl (m_fcls m).
Proof.
  intros (layers & rls & cls & fcls & m0 & Rr & Rc & Rf & Hso & H & (E1 & Lr & Lc & Lf)). unfold network in H.
  apply bind_Some in H as ([] & _ & H). apply bind_Some in H as ([] & _ & H).
  rewrite sort_rls_id in H by done. cbn [mbind option_bind] in H.
  destruct (xsort_ok rl_first rls) as (rls' & Er & Pr & Sr). destruct (xsort_ok cl_layer cls) as (cls' & Ec & Pc & Sc).
  destruct (xsort_ok fcl_layer fcls) as (fcls' & Ef & Pf & Sf). rewrite Er, Ec, Ef in H. cbn [mbind option_bind] in H.
  apply bind_Some in H as ([] & Hch & [= <-]). cbn [m_layers m_rls m_cls m_fcls] in *.
  split; [eapply reach_rls_like; [done|by rewrite Pr]|]. split; [eapply reach_cls_like; [done|by rewrite Pc]|eapply reach_fcls_like; [done|by rewrite Pf]].
Qed.
Lemma round_trip_model r m : reach_model m -> round_trip_to save_model (load_model_opened r) m (model_with_k f1 m).
Proof.
  intros H. destruct (reach_model_layers _ H) as (Hr & Hc & Hf).
  destruct (round_trip_list save_rl (load_rl (rd_k r) (rd_ind r)) (m_rls m) id) as (b1 & S1 & L1).
  { eapply list.Forall_impl; [exact Hr|]. intros x Hx. by apply round_trip_rl. }
  destruct (round_trip_list save_cl (load_cl (rd_k r) (rd_ind r)) (m_cls m) id) as (b2 & S2 & L2).
  { eapply list.Forall_impl; [exact Hc|]. intros x Hx. by apply round_trip_cl. }
  destruct (round_trip_list save_fcl (load_fcl (rd_w r) (rd_nz r)) (m_fcls m) (with_k f1)) as (b3 & S3 & L3).
  { eapply list.Forall_impl; [exact Hf|]. intros x Hx. by apply round_trip_fcl. }
  exists (model_header m ++ b1 ++ b2 ++ b3). split.
  - intros w. unfold save_model, save_layers, fwrites. cbn [mbind option_bind]. rewrite S1. cbn [mbind option_bind]. rewrite S2. cbn [mbind option_bind]. rewrite S3.
    by rewrite <- !app_assoc.
  - intros rest. unfold load_model_opened, model_header. rewrite <- !app_assoc. cbn -[load_all network Z.of_nat].
    rewrite L1. cbn [mbind option_bind]. rewrite L2. cbn [mbind option_bind]. rewrite L3. cbn [mbind option_bind]. rewrite !list_fmap_id.
    destruct H as (layers & rls & cls & fcls & m0 & Rr & Rc & Rf & Hso & H & Hl).
    pose proof (network_again _ _ _ _ _ _ Hso H (model_like_k f1 _ _ Hl)) as Hn. cbn [m_layers m_rls m_cls m_fcls model_with_k] in Hn. rewrite Hn. done.
Qed.
