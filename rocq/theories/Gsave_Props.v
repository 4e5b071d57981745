(** C64: a saved NEAT genome, or population, is the one that is loaded. *)
From Coq Require Import Reals Lra.
From Verif Require Import Base BaseLemmas Shuffle_Spec Neat_Model Neat_Spec Neat4_Proofs Neat5_Proofs Neat6_Proofs Mcts_Model Ff_Model Ff_Proofs Ff2_Proofs Ff4_Proofs Ff5_Proofs Ff7_Proofs Ff8_Proofs Ff_Spec Ff9_Proofs Ff_Props.
From Verif Require Import Gsave_Model Gsave_Spec Gsave_Proofs Gsave2_Proofs Gsave3_Proofs.
Open Scope nat_scope.

Lemma take_zip {A B} (l : list A) (k : list B) : forall n, take n (zip l k) = zip (take n l) (take n k).
Proof. revert k. induction l as [|a l IH]; intros [|b k] [|n]; try done. cbn. f_equal. apply IH. Qed.

Section props.
  Context {W : Type} (one : W).

  (** save_genome and load_genome.  On every machine, whatever the conversion of the bytes does, provided it undoes itself: what is written for a genome
      of any history of calls is read without undefined behaviour, then or later (with at least as many connection numbers), and gives the same nodes in
      the same order, the same connections and the same fitness; the connections of each node are in the order of their numbers. *)
  Theorem saved_genomes_load (cv : Z -> Z) (cvw : W -> W) ip op G l m g fit nc :
    undoes_itself cv -> undoes_itself cvw -> 1 <= ip -> 1 <= op -> reachable one ip op (G, l) -> l !! m = Some g -> gl_conns G <= nc ->
    exists ws g', save_genome cv cvw g fit (gl_conns G) = Some ws /\ load_genome cv cvw nc ws = Some (g', fit) /\
      well_formed ip op G g' /\ same_genome g g' /\ in_order g'.
  Proof.
    intros Hcv Hcvw Hi Ho Hr Hm Hnc. destruct (reachable_genome one _ _ _ _ _ _ Hi Ho Hr Hm) as (HG & Hw & _).
    destruct (genome_words_ok cv cvw ip op G g fit (node_words cv) HG Hw) as (ks & kws & _ & _ & _ & E).
    destruct (read_exact cv cvw Hcv Hcvw ip op G g fit first_with nc _ [] (node_words cv)
      (fun n => mkRaw (Z.of_nat (length (n_in n))) (Z.of_nat (length (n_out n))) (Z.of_nat (n_inn n))) HG Hw Hnc first_good (fun n => eq_refl) (fun n => eq_refl) E)
      as (cs & tab & Hcs & Ht & Er). eexists _, (reread g cs tab). split; [exact E|]. split.
    { unfold load_genome. rewrite app_nil_r in Er. by rewrite Er. }
    split; [by eapply reread_wf|]. split; [by apply reread_same|]. by eapply reread_order.
  Qed.

  (** save_genome_complete and load_genome_complete: the two counts come back too, and no count has to be given. *)
  Theorem complete_genomes_load (cv : Z -> Z) (cvw : W -> W) ip op G l m g fit :
    undoes_itself cv -> undoes_itself cvw -> 1 <= ip -> 1 <= op -> reachable one ip op (G, l) -> l !! m = Some g ->
    exists ws g', save_genome_complete cv cvw g fit (gl_conns G) (gl_nodes G) = Some ws /\
      load_genome_complete cv cvw ws = Some (g', fit, gl_conns G, gl_nodes G) /\
      well_formed ip op G g' /\ same_genome g g' /\ in_order g'.
  Proof.
    intros Hcv Hcvw Hi Ho Hr Hm. destruct (saved_genomes_load cv cvw ip op G l m g fit (gl_conns G) Hcv Hcvw Hi Ho Hr Hm (le_n _)) as (ws & g' & Es & El & H).
    eexists _, g'. split. { unfold save_genome_complete. unfold save_genome in Es. rewrite Es. done. }
    split; [|done]. unfold load_genome_complete. cbn [app]. rewrite (get_int_ok cv Hcv). cbn [mbind option_bind]. rewrite (get_int_ok cv Hcv). cbn [mbind option_bind].
    rewrite !Nat2Z.id. unfold load_genome in El. destruct (read_genome cv cvw first_with (gl_conns G) ws) as [[[g1 f1] r1]|]; [|done]. cbn in El |- *. congruence.
  Qed.

  (** A table that is too small: loading with a count below the number of one of the connections writes outside of it. *)
  Theorem loading_with_too_few_numbers (cv : Z -> Z) (cvw : W -> W) ip op G l m g fit nc num a b e w :
    undoes_itself cv -> undoes_itself cvw -> 1 <= ip -> 1 <= op -> reachable one ip op (G, l) -> l !! m = Some g ->
    has_gene g num a b e w -> nc < num ->
    exists ws, save_genome cv cvw g fit (gl_conns G) = Some ws /\ load_genome cv cvw nc ws = None.
  Proof.
    intros Hcv Hcvw Hi Ho Hr Hm (k & i & j & x & y & Hk & _) Hlt. destruct (reachable_genome one _ _ _ _ _ _ Hi Ho Hr Hm) as (HG & Hw & _).
    destruct (genome_words_ok cv cvw ip op G g fit (node_words cv) HG Hw) as (ks & kws & _ & _ & _ & E). eexists. split; [exact E|].
    unfold load_genome. pose proof (read_small cv cvw Hcv Hcvw ip op G g fit first_with nc
      (fun n => mkRaw (Z.of_nat (length (n_in n))) (Z.of_nat (length (n_out n))) (Z.of_nat (n_inn n))) (node_words cv) _ [] _ HG Hw first_good (fun n => eq_refl) (fun n => eq_refl)
      (elem_of_list_lookup_2 _ _ _ Hk) Hlt E) as En. rewrite app_nil_r in En. by rewrite En.
  Qed.

  (** get_genome_array and init_genome_from_array, when the conversion does nothing (a little-endian machine): the array has exactly the announced size,
      and what follows it is not read. *)
  Theorem array_genomes_load (cvw : W -> W) ip op G l m g fit nc :
    undoes_itself cvw -> 1 <= ip -> 1 <= op -> reachable one ip op (G, l) -> l !! m = Some g -> gl_conns G <= nc ->
    exists ws, get_genome_array (fun z => z) cvw g fit (gl_conns G) = Some ws /\
      get_genome_array_size g (gl_conns G) = Some (4 * length ws) /\
      forall rest, exists g', init_genome_from_array (fun z => z) cvw nc (ws ++ rest) = Some (g', fit) /\
        well_formed ip op G g' /\ same_genome g g' /\ in_order g'.
  Proof.
    intros Hcvw Hi Ho Hr Hm Hnc. destruct (reachable_genome one _ _ _ _ _ _ Hi Ho Hr Hm) as (HG & Hw & _).
    destruct (array_ok (fun z => z) cvw ip op G g fit HG Hw) as (ws & E & _ & Es). exists ws. split; [done|]. split; [done|]. intros rest.
    destruct (array_read (fun z => z) cvw (fun z => eq_refl) Hcvw ip op G g fit nc ws rest HG Hw Hnc E) as (g' & ? & ? & ? & ? & _). by exists g'.
  Qed.

  (** ... and when the conversion changes the number of outgoing connections of some node, the array cannot be read back: that number is written
      unconverted and converted when it is read. *)
  Theorem array_genomes_load_on_every_machine_refuted (cv : Z -> Z) (cvw : W -> W) ip op G l m g fit n :
    undoes_itself cv -> undoes_itself cvw -> 1 <= ip -> 1 <= op -> reachable one ip op (G, l) -> l !! m = Some g ->
    n ∈ g_nodes g -> cv (Z.of_nat (length (n_out n))) <> Z.of_nat (length (n_out n)) ->
    exists ws, get_genome_array cv cvw g fit (gl_conns G) = Some ws /\
      forall nc, gl_conns G <= nc -> init_genome_from_array cv cvw nc ws = None.
  Proof.
    intros Hcv Hcvw Hi Ho Hr Hm Hn Hne. destruct (reachable_genome one _ _ _ _ _ _ Hi Ho Hr Hm) as (HG & Hw & _).
    destruct (array_ok cv cvw ip op G g fit HG Hw) as (ws & E & Ew & _). exists ws. split; [done|]. intros nc Hnc. unfold init_genome_from_array.
    pose proof (read_wrong cv cvw Hcv Hcvw ip op G g fit last_with nc ws [] (node_words_array cv)
      (fun n => mkRaw (Z.of_nat (length (n_in n))) (cv (Z.of_nat (length (n_out n)))) (Z.of_nat (n_inn n))) n HG Hw Hnc last_good (fun n => eq_refl)) as En.
    rewrite app_nil_r in En. rewrite En; [done| |done|done|done]. intros k. unfold node_words_array, raw_words. cbn. by rewrite Hcv.
  Qed.

  (** save_neat and load_neat, when the conversion does nothing: the shared tables come back as they were, with the first genomes, as many as the new
      maximum allows ... *)
  Theorem saved_populations_load (cvw : W -> W) ip op G l (fits : list W) max :
    undoes_itself cvw -> 1 <= ip -> 1 <= op -> reachable one ip op (G, l) -> length fits = length l ->
    exists ws l', save_neat (fun z => z) cvw G (zip l fits) = Some ws /\
      load_neat (fun z => z) cvw max ws = Some (G, zip l' (take max fits)) /\
      length l' = Nat.min max (length l) /\ Forall (well_formed ip op G) l' /\ Forall2 same_genome (take max l) l' /\ Forall in_order l'.
  Proof.
    intros Hcvw Hi Ho Hr Hlen. destruct (reachable_ok one ip op (G, l) Hi Ho Hr) as ([HG Hw] & _). cbn [fst snd] in HG, Hw.
    assert (Hw' : Forall (fun p : genome W * W => well_formed ip op G (fst p)) (zip l fits)).
    { apply Forall_lookup. intros i [g f] H. apply lookup_zip_with_Some in H as (? & ? & ? & H & _). simplify_eq. by eapply Forall_lookup_1 in Hw. }
    destruct (neat_round_trip (fun z => z) cvw (fun z => eq_refl) Hcvw ip op G (zip l fits) max HG Hw') as (ws & gs' & Es & El & HF).
    assert (Et : take max (zip l fits) = zip (take max l) (take max fits)) by apply take_zip. rewrite Et in HF.
    pose proof (Forall2_length _ _ _ HF) as Hl. rewrite zip_with_length, !take_length in Hl.
    exists ws, (fst <$> gs'). split; [done|].
    assert (E : zip (fst <$> gs') (take max fits) = gs').
    { apply list_eq. intros i. destruct (gs' !! i) as [[g' f']|] eqn:Ei.
      - destruct (Forall2_lookup_r _ _ _ _ _ HF Ei) as ([g f] & Hg & Ef & _). apply lookup_zip_with_Some in Hg as (? & ? & ? & _ & Hf). cbn in Ef. simplify_eq.
        apply lookup_zip_with_Some. eexists g', _. split; [done|]. by rewrite list_lookup_fmap, Ei.
      - apply lookup_ge_None in Ei. apply lookup_ge_None. rewrite zip_with_length, fmap_length. lia. }
    rewrite E. split; [done|]. split; [rewrite fmap_length; lia|].
    split; [|split].
    - apply Forall_fmap, Forall_lookup. intros i p Hp. destruct (Forall2_lookup_r _ _ _ _ _ HF Hp) as (? & _ & _ & H & _). done.
    - apply Forall2_same_length_lookup_2; [rewrite take_length, fmap_length; lia|]. intros i g g' Hg Hg'. rewrite list_lookup_fmap in Hg'.
      apply fmap_Some in Hg' as (p & Hp & ->). destruct (Forall2_lookup_r _ _ _ _ _ HF Hp) as ([g1 f1] & Hz & _ & _ & H & _).
      apply lookup_zip_with_Some in Hz as (? & ? & ? & ? & _). by simplify_eq.
    - apply Forall_fmap, Forall_lookup. intros i p Hp. destruct (Forall2_lookup_r _ _ _ _ _ HF Hp) as (? & _ & _ & _ & _ & H). done.
  Qed.

  (** ... and the evolution can go on from there: whatever calls follow, none of them is undefined and the genomes stay well formed. *)
  Theorem loaded_populations_go_on (cvw : W -> W) ip op G l (fits : list W) max ws G' gs' (os : list (call W)) :
    undoes_itself cvw -> 1 <= ip -> 1 <= op -> reachable one ip op (G, l) -> length fits = length l ->
    save_neat (fun z => z) cvw G (zip l fits) = Some ws -> load_neat (fun z => z) cvw max ws = Some (G', gs') -> Forall possible os ->
    exists G2 l2, history one ip op (G', fst <$> gs') os = Some (G2, l2) /\ consistent ip op G2 /\ Forall (well_formed ip op G2) l2.
  Proof.
    intros Hcvw Hi Ho Hr Hlen Es El Hos. destruct (reachable_ok one ip op (G, l) Hi Ho Hr) as ([HG _] & _). cbn [fst] in HG.
    destruct (saved_populations_load cvw ip op G l fits max Hcvw Hi Ho Hr Hlen) as (ws' & l' & Es' & El' & Hl & Hw & _ & _).
    rewrite Es in Es'. injection Es' as <-. rewrite El in El'. injection El' as -> ->.
    rewrite fst_zip by (rewrite take_length; lia).
    destruct (history_ok one ip op os (G, l') Hi Ho) as ([G2 l2] & E & _ & HG2 & Hl2); [by split|done|]. by exists G2, l2.
  Qed.

  (** save_ith_genome: the check of the index is inverted, no genome of the population is ever saved. *)
  Theorem genomes_of_a_population_can_be_saved_refuted (cv : Z -> Z) (cvw : W -> W) G (gs : list (genome W * W)) index :
    index < length gs -> save_ith_genome cv cvw G gs index = None.
  Proof. intros H. unfold save_ith_genome. by rewrite decide_True by lia. Qed.
End props.

(** * Evaluating what was loaded *)

(** A loaded genome is evaluated like the one that was saved when its hidden nodes have at most one enabled outgoing connection each ... *)
Theorem loaded_tree_shaped_genomes_evaluate_the_same (cv : Z -> Z) (cvw : R -> R) (sig : R -> R) ip op G l m g fit ws g' inputs :
  undoes_itself cv -> undoes_itself cvw -> 1 <= ip -> 1 <= op -> reachable 1%R ip op (G, l) -> l !! m = Some g -> ip <= length inputs ->
  tree_shaped g -> no_dead_start g ->
  save_genome cv cvw g fit (gl_conns G) = Some ws -> load_genome cv cvw (gl_conns G) ws = Some (g', fit) ->
  exists out, evaluates_to sig G g inputs out /\ evaluates_to sig G g' inputs out.
Proof.
  intros Hcv Hcvw Hi Ho Hr Hm Hl Ht Hd Es El.
  destruct (saved_genomes_load 1%R cv cvw ip op G l m g fit (gl_conns G) Hcv Hcvw Hi Ho Hr Hm (le_n _)) as (ws' & g1 & Es' & El' & Hw' & (Ei & Eo & En & Hh) & _).
  rewrite Es in Es'. injection Es' as <-. rewrite El in El'. injection El' as <-.
  destruct (reachable_genome 1%R _ _ _ _ _ _ Hi Ho Hr Hm) as (HG & Hw & _).
  destruct (tree_shaped_networks_have_values sig 1%R ip op G l m g inputs Hi Ho Hr Hm Hl Ht) as (val & Hs).
  assert (Q : forall h, well_formed ip op G h -> tree_shaped h -> no_dead_start h -> solves h sig inputs val ->
    evaluates_to sig G h inputs ((fun i => sig (val (ip + 1 + i)%nat + 1)%R) <$> seq 0 op)).
  { clear -Hi Ho HG Hl. intros h Hw Ht Hf Hs. destruct (copy_ok _ _ _ _ Hw) as (g' & Ec & Hw' & _ & Hh).
    assert (Ei : g_input g' = g_input h) by (by rewrite (wf_input _ _ _ _ Hw'), (wf_input _ _ _ _ Hw)). assert (Eo : g_output g' = g_output h) by (by rewrite (wf_output _ _ _ _ Hw'), (wf_output _ _ _ _ Hw)).
    apply (tree_same h g' Ei Hh) in Ht. apply (fed_same h g' Ei Eo Hh) in Hf. apply (solves_same h g' Ei Eo Hh) in Hs.
    pose proof (wf_okg _ _ _ _ _ HG Hw' (le_n _)) as Hg. destruct (solves_index _ _ _ _ HG Hw' _ _ _ Hs) as [H1 H2].
    exists (S (enough (gl_nodes G) g')). intros fuel Hfuel.
    destruct (feed_forward_total real_num sig (gl_nodes G) h g' inputs fuel Ec Hg ltac:(rewrite (wf_input _ _ _ _ Hw'); done) ltac:(lia)) as (out & E & Hlen). rewrite E. f_equal.
    pose proof (forest_value sig (gl_nodes G) g' Hg (forest_of _ _ _ _ HG Hw' Ht) (fed_of _ _ _ _ HG Hw' Hf) (fun v => val (name g' v)) H2 h inputs fuel out Ec ltac:(unfold enough in Hfuel; lia) H1 E) as ->.
    pose proof (wf_input _ _ _ _ Hw') as Ei'. pose proof (wf_output _ _ _ _ Hw') as Eo'. rewrite Eo'. apply list_fmap_ext. intros j i Hio. apply lookup_seq in Hio as [Hj Hio].
    destruct (name_base _ _ _ _ HG Hw' (i + g_input g') ltac:(lia)) as [-> _]. do 3 f_equal. lia. }
  exists ((fun i => sig (val (ip + 1 + i)%nat + 1)%R) <$> seq 0 op). split; [by apply Q|].
  apply Q; [done| | |]; [by apply (tree_same g g' Ei Hh)|by apply (fed_same g g' Ei Eo Hh)|by apply (solves_same g g' Ei Eo Hh)].
Qed.

(** ... but not in general: what the evaluation makes of a hidden node with several outgoing connections depends on their order.  The nodes 4 and 5 are
    hidden; 4 goes to both outputs and to 5.  The genome got 4 -> 5 before 4 -> 3, whose number another genome of the population had used earlier; the
    loaded genome has them the other way round.  Same connections, other outputs, for all but one value of the weight of 4 -> 3. *)
Definition order_calls (w1 w2 w3 w4 w5 w6 : R) : list (call R) :=
  [New; Connect 0 9 (pick 0) (pick 0) 1%R; Connect 0 9 (pick 0) (pick 9) 1%R; Split 0 9 (pick 0); Split 0 9 (pick 0); Copy 0;
   Connect 0 9 (pick 5) (pick 0) 1%R; Connect 1 9 (pick 5) (pick 9) 1%R; Connect 1 9 (pick 5) (pick 0) 1%R; Weights 1 (set_to [w1; w1; w1; w2; w3; w4; w5; w6])].
Theorem loaded_genomes_evaluate_the_same_refuted w1 w2 w3 w4 w5 w6 x fit :
  exists G l g ws g', reachable 1%R 1 2 (G, l) /\ l !! 1 = Some g /\
    enabled_are g [(3, 1, 4, w1); (5, 1, 5, w2); (4, 4, 2, w3); (7, 4, 3, w5); (8, 4, 5, w6); (6, 5, 3, w4)] /\
    save_genome (fun z => z) (fun w => w) g fit (gl_conns G) = Some ws /\ load_genome (fun z => z) (fun w => w) (gl_conns G) ws = Some (g', fit) /\
    (forall sig, evaluates_to sig G g [x] [sig (0 + sig (0 + x * w1) * w3 + 1)%R; sig (0 + sig (0 + sig (0 + x * w1) * w6 + x * w2) * w4 + 1)%R]) /\
    (forall sig, evaluates_to sig G g' [x] [sig (0 + sig (0 + x * w1) * w3 + 1)%R; sig (0 + sig (0 + x * w1) * w5 + sig (0 + x * w2) * w4 + 1)%R]) /\
    ((msig (x * w1) * w5 <> (msig (msig (x * w1) * w6 + x * w2) - msig (x * w2)) * w4)%R ->
     forall out out', evaluates_to msig G g [x] out -> evaluates_to msig G g' [x] out' -> out <> out').
Proof.
  destruct (history 1%R 1 2 (init_globals 1 2, []) (order_calls w1 w2 w3 w4 w5 w6)) as [[G l]|] eqn:E; [|vm_compute in E; discriminate E].
  assert (Hr : reachable 1%R 1 2 (G, l)).
  { exists (order_calls w1 w2 w3 w4 w5 w6). split; [|done]. unfold order_calls. repeat (apply list.Forall_cons; split; [cbn; repeat split; try (apply pick_ok; lia)|]). apply list.Forall_nil. done. }
  vm_compute in E. injection E as <- <-. eexists _, _, _, _, _. split; [exact Hr|]. split; [reflexivity|]. clear Hr.
  split; [gene_list; [by eexists 4, 0, 3, _, _|by eexists 5, 0, 4, _, _|by eexists 1, 3, 1, _, _|by eexists 7, 3, 2, _, _|by eexists 6, 3, 4, _, _|by eexists 3, 4, 2, _, _]|].
  split; [vm_compute; reflexivity|]. split; [vm_compute; reflexivity|].
  match goal with |- ?A /\ _ => assert (HE : A) end; [intros sig; run_it|]. split; [done|].
  match goal with |- ?A /\ _ => assert (HE' : A) end; [intros sig; run_it|]. split; [done|].
  intros Hw out out' [f2 H2] [f3 H3] Eo. destruct (HE msig) as [f1 H1]. destruct (HE' msig) as [f4 H4].
  pose proof (H1 (f1 + f2 + f3 + f4) ltac:(lia)) as K1. rewrite (H2 (f1 + f2 + f3 + f4) ltac:(lia)) in K1. injection K1 as ->.
  pose proof (H4 (f1 + f2 + f3 + f4) ltac:(lia)) as K1. rewrite (H3 (f1 + f2 + f3 + f4) ltac:(lia)) in K1. injection K1 as ->.
  injection Eo as Eo. apply msig_inj in Eo. apply Hw. rewrite !Rplus_0_l in Eo. lra.
Qed.

(** * Examples *)

(** reversing the four bytes of an int, a conversion that undoes itself and is not the identity *)
Definition reversed (z : Z) : Z :=
  (if decide (0 <= z < 4294967296) then (z mod 256) * 16777216 + (z / 256 mod 256) * 65536 + (z / 65536 mod 256) * 256 + z / 16777216 else z)%Z.
Example reversed_undoes_itself : undoes_itself reversed.
Proof.
  intros z. unfold reversed. destruct (decide (0 <= z < 4294967296)%Z) as [H|H]; [|by rewrite decide_False].
  set (a := (z mod 256)%Z). set (b := (z / 256 mod 256)%Z). set (c := (z / 65536 mod 256)%Z). set (d := (z / 16777216)%Z).
  assert (Hz : (z = d * 16777216 + c * 65536 + b * 256 + a /\ 0 <= a < 256 /\ 0 <= b < 256 /\ 0 <= c < 256 /\ 0 <= d < 256)%Z).
  { unfold a, b, c, d. Z.to_euclidean_division_equations. lia. }
  clearbody a b c d. destruct Hz as (-> & Ha & Hb & Hc & Hd). rewrite decide_True by lia. Z.to_euclidean_division_equations. lia.
Qed.

(** The genome of [a_tree_shaped_genome] (Ff_Props.v): two inputs 1 and 2, the output 3 and the hidden node 4.  On a machine that reverses the bytes, the
    file is read back, and the array is not, since the number of outgoing connections of node 4 is 1. *)
Example a_saved_genome (w1 w2 w3 w4 fit : R) : exists G l g ws g' ws',
  reachable 1%R 2 1 (G, l) /\ l !! 0 = Some g /\ has_gene g 3 4 3 true w3 /\
  save_genome reversed (fun w => w) g fit (gl_conns G) = Some ws /\ length ws = 42 /\
  load_genome reversed (fun w => w) (gl_conns G) ws = Some (g', fit) /\ has_gene g' 3 4 3 true w3 /\
  load_genome reversed (fun w => w) 4 ws = None /\
  get_genome_array reversed (fun w => w) g fit (gl_conns G) = Some ws' /\
  (exists n, n ∈ g_nodes g /\ reversed (Z.of_nat (length (n_out n))) <> Z.of_nat (length (n_out n))) /\
  init_genome_from_array reversed (fun w => w) (gl_conns G) ws' = None.
Proof.
  destruct (history 1%R 2 1 (init_globals 2 1, []) (tree_calls w1 w2 w3 w4)) as [[G l]|] eqn:E; [|vm_compute in E; discriminate E].
  assert (Hr : reachable 1%R 2 1 (G, l)).
  { exists (tree_calls w1 w2 w3 w4). split; [|done]. unfold tree_calls. repeat (apply list.Forall_cons; split; [cbn; repeat split; try (apply pick_ok; lia)|]). apply list.Forall_nil. done. }
  vm_compute in E. injection E as <- <-. eexists _, _, _, _, _, _. split; [exact Hr|]. split; [reflexivity|]. clear Hr.
  split; [by eexists 2, 3, 2, _, _|]. split; [vm_compute; reflexivity|]. split; [done|]. split; [vm_compute; reflexivity|].
  split; [by eexists 4, 3, 2, _, _|]. split; [vm_compute; reflexivity|]. split; [vm_compute; reflexivity|].
  split; [eexists; split; [apply elem_of_list_further, elem_of_list_further, elem_of_list_further, elem_of_list_here|by vm_compute]|]. vm_compute; reflexivity.
Qed.

(** A population of two genomes, saved, and loaded with a maximum of 5 and of 1. *)
Example a_saved_population (w1 w2 w3 w4 f1 f2 : R) : exists G l ws g1 g2,
  reachable 1%R 2 1 (G, l) /\ length l = 2 /\ save_neat (fun z => z) (fun w => w) G (zip l [f1; f2]) = Some ws /\ length ws = 92 /\
  load_neat (fun z => z) (fun w => w) 5 ws = Some (G, [(g1, f1); (g2, f2)]) /\ load_neat (fun z => z) (fun w => w) 1 ws = Some (G, [(g1, f1)]).
Proof.
  destruct (history 1%R 2 1 (init_globals 2 1, []) (tree_calls w1 w2 w3 w4 ++ [New; Connect 1 9 (pick 5) (pick 0) 1%R; Connect 1 9 (pick 5) (pick 5) 1%R])) as [[G l]|] eqn:E; [|vm_compute in E; discriminate E].
  assert (Hr : reachable 1%R 2 1 (G, l)).
  { exists (tree_calls w1 w2 w3 w4 ++ [New; Connect 1 9 (pick 5) (pick 0) 1%R; Connect 1 9 (pick 5) (pick 5) 1%R]). split; [|done]. unfold tree_calls. cbn [app].
    repeat (apply list.Forall_cons; split; [cbn; repeat split; try (apply pick_ok; lia)|]). apply list.Forall_nil. done. }
  vm_compute in E. injection E as <- <-. eexists _, _, _, _, _. split; [exact Hr|]. split; [reflexivity|]. clear Hr.
  split; [vm_compute; reflexivity|]. split; [vm_compute; reflexivity|]. split; vm_compute; reflexivity.
Qed.

Print Assumptions saved_genomes_load.
Print Assumptions complete_genomes_load.
Print Assumptions loading_with_too_few_numbers.
Print Assumptions array_genomes_load.
Print Assumptions array_genomes_load_on_every_machine_refuted.
Print Assumptions saved_populations_load.
Print Assumptions loaded_populations_go_on.
Print Assumptions genomes_of_a_population_can_be_saved_refuted.
Print Assumptions loaded_tree_shaped_genomes_evaluate_the_same.
Print Assumptions loaded_genomes_evaluate_the_same_refuted.
