From Verif Require Import Base BaseLemmas Neat_Model Neat_Spec Neat_Proofs Gsave_Model Gsave_Spec Gsave_Proofs Gsave2_Proofs.
Open Scope nat_scope.

Section gsave.
  Context {W : Type} (cv : Z -> Z) (cvw : W -> W).
  Implicit Types (g : genome W) (ws : list (word W)).

  Lemma join_length {A B} (f : A -> list B) m l : (forall x, x ∈ l -> length (f x) = m) -> length (mjoin (f <$> l)) = m * length l.
  Proof using.
    induction l as [|x l IH]; intros H; [cbn; lia|]. change (mjoin (f <$> x :: l)) with (f x ++ mjoin (f <$> l)).
    rewrite app_length, IH by (intros y Hy; apply H; by right). rewrite (H x) by (by left). cbn. lia.
  Qed.

  Lemma conn_words_length g ks kws : mapM (conn_words cv cvw g) ks = Some kws -> length (mjoin kws) = 5 * length ks.
  Proof using.
    intros E. apply mapM_Some in E. induction E as [|k kw ks kws Ek E IH]; [done|].
    change (mjoin (kw :: kws)) with (kw ++ mjoin kws). rewrite app_length, IH. unfold conn_words in Ek.
    apply bind_Some in Ek as (? & _ & Ek). apply bind_Some in Ek as (? & _ & Ek). apply bind_Some in Ek as (? & _ & Ek). simplify_eq. cbn. lia.
  Qed.

  Lemma size_ok ip op G g : consistent ip op G -> well_formed ip op G g ->
    get_genome_array_size g (gl_conns G) = Some (4 * (5 + 3 * length (g_nodes g) + 5 * length (g_conns g))).
  Proof using.
    intros HG Hw. unfold get_genome_array_size. destruct (get_connections_ok ip op G g HG Hw) as (ks & -> & Hp).
    cbn [mbind option_bind]. apply Permutation_length in Hp. rewrite seq_length in Hp. f_equal. lia.
  Qed.

  Lemma words_length ip op G g fit nw ws : consistent ip op G -> well_formed ip op G g -> (forall n, length (nw n) = 3) ->
    genome_words cv cvw nw g fit (gl_conns G) = Some ws ->
    length ws = 5 + 3 * length (g_nodes g) + 5 * length (g_conns g).
  Proof using.
    intros HG Hw Hn E. destruct (genome_words_ok cv cvw ip op G g fit nw HG Hw) as (ks & kws & _ & Hp & Ekw & E').
    rewrite E in E'. injection E' as ->. cbn [app length]. rewrite !app_length. cbn [length].
    rewrite (join_length nw 3) by (intros; apply Hn). rewrite (conn_words_length _ _ _ Ekw).
    apply Permutation_length in Hp. rewrite seq_length in Hp. lia.
  Qed.

  Lemma array_ok ip op G g fit : consistent ip op G -> well_formed ip op G g ->
    exists ws, get_genome_array cv cvw g fit (gl_conns G) = Some ws /\
      genome_words cv cvw (node_words_array cv) g fit (gl_conns G) = Some ws /\
      get_genome_array_size g (gl_conns G) = Some (4 * length ws).
  Proof using.
    intros HG Hw. destruct (genome_words_ok cv cvw ip op G g fit (node_words_array cv) HG Hw) as (ks & kws & _ & _ & _ & E).
    eexists. split; [|split; [exact E|]].
    - unfold get_genome_array. rewrite (size_ok ip op G g HG Hw). cbn [mbind option_bind]. rewrite E. cbn [mbind option_bind].
      rewrite decide_True; [done|]. rewrite (words_length ip op G g fit _ _ HG Hw) with (2 := E) by done. lia.
    - rewrite (words_length ip op G g fit _ _ HG Hw) with (2 := E) by done. by rewrite (size_ok ip op G g HG Hw).
  Qed.

  (** ** Machines on which nothing is converted *)

  Hypothesis cv_id : forall z, cv z = z.
  Hypothesis cvw_inv : undoes_itself cvw.

  (** one genome of the array *)
  Lemma array_read ip op G g fit nc ws rest : consistent ip op G -> well_formed ip op G g -> gl_conns G <= nc ->
    get_genome_array cv cvw g fit (gl_conns G) = Some ws ->
    exists g', init_genome_from_array cv cvw nc (ws ++ rest) = Some (g', fit) /\
      well_formed ip op G g' /\ same_genome g g' /\ in_order g' /\ length (g_conns g') = length (g_conns g).
  Proof using cv_id cvw_inv.
    intros HG Hw Hnc E. destruct (array_ok ip op G g fit HG Hw) as (ws' & E' & Ew & _). rewrite E in E'. injection E' as <-.
    assert (cv_inv : undoes_itself cv) by (intros z; by rewrite !cv_id).
    destruct (read_exact cv cvw cv_inv cvw_inv ip op G g fit last_with nc ws rest (node_words_array cv)
      (fun n => mkRaw (Z.of_nat (length (n_in n))) (Z.of_nat (length (n_out n))) (Z.of_nat (n_inn n))))
      as (cs & tab & Hcs & Ht & Er); [done|done|done|apply last_good|done| |done|].
    { intros n. unfold node_words_array, raw_words. cbn. by rewrite (cv_id (Z.of_nat (length (n_out n)))). }
    exists (reread g cs tab). split. { unfold init_genome_from_array. by rewrite Er. }
    split; [by eapply reread_wf|]. split; [by apply reread_same|]. split; [by eapply reread_order|].
    cbn. by rewrite Hcs.
  Qed.

  Definition good_copy ip op G (p p' : genome W * W) : Prop :=
    snd p' = snd p /\ well_formed ip op G (fst p') /\ same_genome (fst p) (fst p') /\ in_order (fst p').

  Lemma nodes_length g g' : same_genome g g' -> length (g_nodes g') = length (g_nodes g).
  Proof using.
    intros (_ & _ & H & _). apply (f_equal length) in H. unfold node_numbers in H. by rewrite !fmap_length in H.
  Qed.

  Lemma genomes_read ip op G : consistent ip op G -> forall gs m gws rest, Forall (fun p => well_formed ip op G (fst p)) gs ->
    mapM (fun p => get_genome_array cv cvw (fst p) (snd p) (gl_conns G)) gs = Some gws -> m <= length gs ->
    exists gs', get_genomes cv cvw m (gl_conns G) (mjoin gws ++ rest) = Some gs' /\
      Forall2 (good_copy ip op G) (take m gs) gs'.
  Proof using cv_id cvw_inv.
    intros HG gs. induction gs as [|[g fit] gs IH]; intros m gws rest Hw E Hm.
    - cbn in Hm. assert (m = 0) as -> by lia. exists []. split; [done|constructor].
    - destruct m as [|m]; [exists []; split; [done|constructor]|].
      apply mapM_Some in E. inversion E as [|? ws ? gws' Ew E']; subst. apply mapM_Some in E'. cbn [fst snd] in Ew.
      inversion Hw as [|? ? Hw1 Hw2]; subst. cbn [fst] in Hw1.
      change (mjoin (ws :: gws')) with (ws ++ mjoin gws'). rewrite <- (assoc_L (++)). cbn [get_genomes].
      destruct (array_read ip op G g fit (gl_conns G) ws (mjoin gws' ++ rest) HG Hw1 (le_n _) Ew) as (g' & Er & Hw' & Hs & Ho & Hl).
      rewrite Er. cbn [mbind option_bind fst].
      rewrite (size_ok ip op G g' HG Hw'). cbn [mbind option_bind].
      destruct (array_ok ip op G g fit HG Hw1) as (ws' & E1' & Eg & _). rewrite Ew in E1'. injection E1' as <-.
      pose proof (words_length ip op G g fit (node_words_array cv) ws HG Hw1 (fun n => eq_refl) Eg) as Hlen.
      rewrite Nat.mul_comm, Nat.div_mul by done. rewrite (nodes_length g g' Hs), Hl, <- Hlen, drop_app.
      destruct (IH m gws' rest Hw2 E' ltac:(cbn in Hm; lia)) as (gs' & -> & HF). cbn [mbind option_bind].
      exists ((g', fit) :: gs'). split; [done|]. cbn [take]. constructor; [|done]. done.
  Qed.

  (** the shared tables *)
  Lemma mapM_seq {A} (l : list A) n : length l = n -> mapM (rd l) (seq 0 n) = Some l.
  Proof using.
    intros <-. apply mapM_Some. apply Forall2_same_length_lookup_2; [by rewrite seq_length|].
    intros i k x Hk Hx. apply lookup_seq in Hk as [-> _]. done.
  Qed.

  Lemma get_pairs_ok ps ws :
    get_pairs cv (length ps) (mjoin ((fun p => [Int (cv (fst p)); Int (cv (snd p))]) <$> ps) ++ ws) = Some (ps, ws).
  Proof using cv_id.
    set (f := fun p : Z * Z => [Int (cv (fst p)); Int (cv (snd p))] : list (word W)).
    induction ps as [|[a b] ps IH]; [done|]. change (mjoin (f <$> (a, b) :: ps)) with (f (a, b) ++ mjoin (f <$> ps)).
    unfold f at 1. cbn [length get_pairs app fst snd get_int mbind option_bind]. rewrite IH. cbn [mbind option_bind]. by rewrite !cv_id.
  Qed.

  Lemma get_ints_ok zs ws : get_ints cv (length zs) (((fun z => Int (cv z)) <$> zs) ++ ws) = Some (zs, ws).
  Proof using cv_id.
    set (f := fun z : Z => Int (cv z) : word W).
    induction zs as [|z zs IH]; [done|]. change (f <$> z :: zs) with (f z :: (f <$> zs)).
    unfold f at 1. cbn [length get_ints app get_int mbind option_bind]. rewrite IH. cbn [mbind option_bind]. by rewrite !cv_id.
  Qed.

  Definition zpair (p : nat * nat) : Z * Z := (Z.of_nat (fst p), Z.of_nat (snd p)).
  Definition zrow (p : option (nat * nat)) : Z * Z := match p with Some p => zpair p | None => (-1, -1)%Z end.

  Lemma neat_round_trip ip op G (gs : list (genome W * W)) m : consistent ip op G ->
    Forall (fun p => well_formed ip op G (fst p)) gs ->
    exists ws gs', save_neat cv cvw G gs = Some ws /\ load_neat cv cvw m ws = Some (G, gs') /\
      Forall2 (good_copy ip op G) (take m gs) gs'.
  Proof using cv_id cvw_inv.
    intros HG Hw.
    assert (Hgw : exists gws, mapM (fun p => get_genome_array cv cvw (fst p) (snd p) (gl_conns G)) gs = Some gws /\
      sum_sizes gs (gl_conns G) = Some (4 * length (mjoin gws))).
    { unfold sum_sizes. assert (H : forall k, exists gws, mapM (fun p => get_genome_array cv cvw (fst p) (snd p) (gl_conns G)) gs = Some gws /\
        each (fun s (p : genome W * W) => n ← get_genome_array_size (fst p) (gl_conns G); Some (s + n)) gs k = Some (k + 4 * length (mjoin gws))).
      { clear -HG Hw. induction Hw as [|[g fit] gs Hw1 Hw2 IH]; intros k; [exists []; split; [done|]; cbn; f_equal; lia|].
        cbn [fst] in Hw1. destruct (array_ok ip op G g fit HG Hw1) as (ws & E1' & _ & Es).
        destruct (IH (k + 4 * length ws)) as (gws & Em & Ee). exists (ws :: gws). cbn [each mapM fst snd]. rewrite E1', Es.
        cbn [mbind option_bind]. rewrite Em, Ee. split; [done|]. f_equal.
        change (mjoin (ws :: gws)) with (ws ++ mjoin gws). rewrite app_length. lia. }
      destruct (H 0) as (gws & ? & ->). by exists gws. }
    destruct Hgw as (gws & Egw & Esum).
    set (ws := [Int (cv (Z.of_nat (length gs))); Int (cv (Z.of_nat (gl_conns G))); Int (cv (Z.of_nat (gl_nodes G)))] ++
              mjoin (pair_words cv <$> gl_mconns G) ++ ((fun d => Int (cv (Z.of_nat d))) <$> gl_dict G) ++
              mjoin (row_words cv <$> gl_mnodes G) ++ mjoin gws).
    assert (Hlen : get_length_of_char_neat G gs = Some (4 * length ws)).
    { unfold get_length_of_char_neat. rewrite Esum. cbn [mbind option_bind]. f_equal. unfold ws. rewrite !app_length. cbn [length].
      rewrite (join_length (pair_words cv) 2) by done. rewrite (join_length (row_words cv) 2) by (intros [p|] _; done).
      rewrite fmap_length, (co_conns _ _ _ HG), (co_dict _ _ _ HG), (co_mnodes _ _ _ HG). lia. }
    assert (Hg : get_neat_in_char_vector cv cvw G gs = Some ws).
    { unfold get_neat_in_char_vector. rewrite Hlen. cbn [mbind option_bind].
      rewrite (mapM_seq (gl_mconns G)) by apply (co_conns _ _ _ HG). cbn [mbind option_bind].
      rewrite (mapM_seq (gl_dict G)) by apply (co_dict _ _ _ HG). cbn [mbind option_bind].
      rewrite (mapM_seq (gl_mnodes G)) by apply (co_mnodes _ _ _ HG). cbn [mbind option_bind].
      rewrite Egw. cbn [mbind option_bind]. fold ws. cbn zeta. by rewrite decide_True. }
    assert (Hm : Nat.min (length gs) m <= length gs) by lia.
    destruct (genomes_read ip op G HG gs _ gws [] Hw Egw Hm) as (gs' & Er & HF). rewrite app_nil_r in Er.
    exists ws, gs'. split. { unfold save_neat. rewrite Hlen. cbn [mbind option_bind]. rewrite Hg. cbn [mbind option_bind]. by rewrite decide_True. }
    split.
    2:{ replace (take m gs) with (take (Nat.min (length gs) m) gs); [done|].
        destruct (decide (m <= length gs)); [by rewrite Nat.min_r|]. rewrite Nat.min_l by lia. by rewrite !take_ge by lia. }
    unfold load_neat, init_from_char, ws. cbn [app get_int]. cbn [mbind option_bind]. cbn [get_int mbind option_bind].
    rewrite !cv_id, !Nat2Z.id.
    replace (pair_words cv <$> gl_mconns G) with ((fun p => [Int (cv (fst p)); Int (cv (snd p)) : word W]) <$> (zpair <$> gl_mconns G)).
    2:{ rewrite <- list_fmap_compose. by apply list_fmap_ext. }
    rewrite <- (co_conns _ _ _ HG) at 1. rewrite <- (fmap_length zpair (gl_mconns G)), get_pairs_ok. cbn [mbind option_bind].
    replace ((fun d : nat => Int (cv (Z.of_nat d))) <$> gl_dict G) with ((fun z => Int (cv z) : word W) <$> (Z.of_nat <$> gl_dict G)).
    2:{ rewrite <- list_fmap_compose. by apply list_fmap_ext. }
    rewrite <- (co_dict _ _ _ HG) at 1. rewrite <- (fmap_length Z.of_nat (gl_dict G)), get_ints_ok. cbn [mbind option_bind].
    replace (row_words cv <$> gl_mnodes G) with ((fun p => [Int (cv (fst p)); Int (cv (snd p)) : word W]) <$> (zrow <$> gl_mnodes G)).
    2:{ rewrite <- list_fmap_compose. apply list_fmap_ext. by intros _ [p|] _. }
    rewrite <- (co_mnodes _ _ _ HG) at 1. rewrite <- (fmap_length zrow (gl_mnodes G)), get_pairs_ok. cbn [mbind option_bind].
    rewrite Er. cbn [mbind option_bind]. do 2 f_equal. destruct G as [nn nc d mn mc]. cbn. f_equal.
    - rewrite <- list_fmap_compose. rewrite <- (list_fmap_id d) at 2. apply list_fmap_ext. intros _ x _. cbn. apply Nat2Z.id.
    - rewrite <- list_fmap_compose. rewrite <- (list_fmap_id mn) at 2. apply list_fmap_ext. intros _ [[x y]|] _; cbn.
      + unfold zpair. cbn [fst snd]. rewrite decide_False by (intros [=]; lia). by rewrite !Nat2Z.id.
      + done.
    - rewrite <- list_fmap_compose. rewrite <- (list_fmap_id mc) at 2. apply list_fmap_ext. intros _ [x y] _. cbn. by rewrite !Nat2Z.id.
  Qed.
End gsave.
