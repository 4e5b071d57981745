(** C44: NEAT genomes under mutation and crossover.  [W] is the type of the weights and [one] the
    weight 1; the theorems hold for every [W].  A population is [reachable] when some sequence of
    calls leads to it from the initial tables ([Neat_Spec.reachable]). *)
From Verif Require Import Base BaseLemmas Shuffle_Model Shuffle_Spec Neat_Model Neat_Spec.
From Verif Require Import Neat_Proofs Tidy_Proofs Neat2_Proofs Neat3_Proofs Neat4_Proofs Neat5_Proofs Neat6_Proofs.
Open Scope nat_scope.

Section props.
  Context {W : Type} (one : W).

  (** Whatever calls are made, in whatever order and with whatever random numbers: none of them has
      undefined behaviour, and they leave consistent tables and well-formed genomes. *)
  Theorem histories_are_well_formed input output (os : list (call W)) :
    1 <= input -> 1 <= output -> Forall possible os ->
    exists G l, history one input output (init_globals input output, []) os = Some (G, l) /\
      consistent input output G /\ Forall (well_formed input output G) l.
  Proof.
    intros Hi Ho Hos.
    destruct (history_ok one input output os (init_globals input output, []) Hi Ho) as ([G l] & E & _ & HG & Hl).
    - split; [apply consistent_init|constructor].
    - done.
    - by exists G, l.
  Qed.

  (** In a reachable population two connections, of one genome or of two, have the same number if
      and only if they join the same two nodes in the same direction. *)
  Theorem same_number_same_connection input output G (l : list (genome W)) m m' g g' num a b e w num' a' b' e' w' :
    1 <= input -> 1 <= output -> reachable one input output (G, l) ->
    l !! m = Some g -> l !! m' = Some g' ->
    has_gene g num a b e w -> has_gene g' num' a' b' e' w' ->
    num = num' <-> a = a' /\ b = b'.
  Proof.
    intros Hi Ho Hr Hm Hm'. destruct (reachable_genome one _ _ _ _ _ _ Hi Ho Hr Hm) as (HG & H1 & _).
    destruct (reachable_genome one _ _ _ _ _ _ Hi Ho Hr Hm') as (_ & H2 & _). by apply (numbers_ok input output G).
  Qed.

  (** No connection of a reachable genome enters an input or leaves an output, and the nodes it
      joins are nodes of the genome. *)
  Theorem connections_join_the_right_nodes input output G (l : list (genome W)) m g num a b e w :
    1 <= input -> 1 <= output -> reachable one input output (G, l) -> l !! m = Some g ->
    has_gene g num a b e w ->
    a ∈ node_numbers g /\ b ∈ node_numbers g /\ ~ is_output input output a /\ ~ is_input input b.
  Proof.
    intros Hi Ho Hr Hm Hg. destruct (reachable_genome one _ _ _ _ _ _ Hi Ho Hr Hm) as (HG & Hw & _).
    destruct (has_gene_number _ _ _ _ _ _ _ _ _ Hw Hg) as (p & _ & Hp & Ha & Hb).
    destruct (co_ends _ _ _ HG _ _ _ Hp) as (_ & _ & ? & ?). done.
  Qed.

  (** split_random_connection: true, and one enabled connection is split; or false, nothing
      changes, and every enabled connection was already split in this genome. *)
  Theorem split_splits input output rmax rand G (l : list (genome W)) m g :
    1 <= input -> 1 <= output -> rand_ok rmax rand -> reachable one input output (G, l) -> l !! m = Some g ->
    exists r G' g', split_random_connection one rmax rand G g = Some (r, G', g') /\
      if r : bool then split_effect one G G' g g'
      else G' = G /\ g' = g /\ forall num a b w, has_gene g num a b true w ->
             exists s, gl_dict G !! (num - 1) = Some s /\ s <> 0 /\ s ∈ node_numbers g.
  Proof.
    intros Hi Ho Hrand Hr Hm. destruct (reachable_genome one _ _ _ _ _ _ Hi Ho Hr Hm) as (HG & Hw & _).
    destruct (split_ok one input output rmax rand G g Hrand Hi HG Hw) as (r & G' & g' & E & _ & _ & _ & H).
    by exists r, G', g'.
  Qed.

  (** The same structural change gets the same numbers: when one genome splits a connection and
      later, after any other calls, another genome (or a copy of the first) splits the connection
      of the same number, the new node and the two new connections have the same numbers. *)
  Theorem same_split_same_numbers input output G1 (l1 : list (genome W)) m1 g1 rmax1 rand1 G1' g1' os G2 l2 m2 g2 rmax2 rand2 G2' g2'
      num a b w1 w2 :
    1 <= input -> 1 <= output -> reachable one input output (G1, l1) ->
    l1 !! m1 = Some g1 -> rand_ok rmax1 rand1 ->
    split_random_connection one rmax1 rand1 G1 g1 = Some (true, G1', g1') ->
    Forall possible os -> history one input output (G1', <[m1:=g1']> l1) os = Some (G2, l2) ->
    l2 !! m2 = Some g2 -> rand_ok rmax2 rand2 ->
    split_random_connection one rmax2 rand2 G2 g2 = Some (true, G2', g2') ->
    has_gene g1 num a b true w1 -> has_gene g1' num a b false w1 ->
    has_gene g2 num a b true w2 -> has_gene g2' num a b false w2 ->
    exists s e1 e2, s ∉ node_numbers g1 /\ s ∉ node_numbers g2 /\
      node_numbers g1' = node_numbers g1 ++ [s] /\ node_numbers g2' = node_numbers g2 ++ [s] /\
      has_gene g1' e1 a s true one /\ has_gene g1' e2 s b true w1 /\
      has_gene g2' e1 a s true one /\ has_gene g2' e2 s b true w2.
  Proof.
    intros Hi Ho Hr Hm1 Hr1 E1 Hos Eh Hm2 Hr2 E2.
    destruct (reachable_genome one _ _ _ _ _ _ Hi Ho Hr Hm1) as (HG1 & Hw1 & _).
    destruct (split_ok one input output rmax1 rand1 G1 g1 Hr1 Hi HG1 Hw1) as (r & G & g & E & C1 & X1 & W1 & H1).
    rewrite E1 in E. injection E as <- <- <-.
    assert (Hs : sound input output (G1', <[m1:=g1']> l1)).
    { destruct (perform_ok one input output (G1, l1) (Split m1 rmax1 rand1) Hi Ho) as (P' & Ep & _ & Hs).
      - by apply (reachable_ok one).
      - done.
      - cbn in Ep. rewrite Hm1, E1 in Ep. cbn in Ep. by simplify_eq. }
    destruct (history_ok one input output os _ Hi Ho Hs Hos) as (P2 & Eh' & X2 & HG2 & Hl2).
    rewrite Eh in Eh'. apply (inj Some) in Eh'. subst P2. cbn in X2, HG2, Hl2.
    pose proof (Forall_lookup_1 _ _ _ _ Hl2 Hm2) as Hw2. cbn in Hw2.
    destruct (split_ok one input output rmax2 rand2 G2 g2 Hr2 Hi HG2 Hw2) as (r & G & g & E & C2 & X3 & W2 & H2).
    rewrite E2 in E. injection E as <- <- <-.
    eapply (same_split one input output G1 g1 G1' g1' G2 g2 G2' g2'); done.
  Qed.

  (** add_random_connection: true, and one disabled connection is enabled or one new connection is
      added; or false, nothing changes, and every pair of nodes that may be joined is joined by an
      enabled connection. *)
  Theorem connect_connects input output rmax rand1 rand2 w G (l : list (genome W)) m g :
    1 <= input -> 1 <= output -> rand_ok rmax rand1 -> rand_ok rmax rand2 ->
    reachable one input output (G, l) -> l !! m = Some g ->
    exists r G' g', add_random_connection rmax rand1 rand2 w G g = Some (r, G', g') /\
      if r : bool then (G' = G /\ flip_effect false g g') \/ connect_effect input output w G G' g g'
      else G' = G /\ g' = g /\ forall a b, a ∈ node_numbers g -> b ∈ node_numbers g ->
             ~ is_output input output a -> ~ is_input input b -> exists num w', has_gene g num a b true w'.
  Proof.
    intros Hi Ho Hr1 Hr2 Hr Hm. destruct (reachable_genome one _ _ _ _ _ _ Hi Ho Hr Hm) as (HG & Hw & _).
    destruct (add_ok input output rmax rand1 rand2 w G g Hr1 Hr2 Hi Ho HG Hw) as (r & G' & g' & E & _ & _ & _ & H).
    by exists r, G', g'.
  Qed.

  (** remove_random_connection disables one enabled connection, activate_random_connection enables
      one disabled connection; they return false, and change nothing, exactly when there is none. *)
  Theorem remove_disables_one input output rmax rand G (l : list (genome W)) m g :
    1 <= input -> 1 <= output -> rand_ok rmax rand -> reachable one input output (G, l) -> l !! m = Some g ->
    exists r g', flip_random_connection true rmax rand g (gl_conns G) = Some (r, g') /\
      if r : bool then flip_effect true g g' else g' = g /\ forall num a b w, ~ has_gene g num a b true w.
  Proof.
    intros Hi Ho Hrand Hr Hm. destruct (reachable_genome one _ _ _ _ _ _ Hi Ho Hr Hm) as (HG & Hw & _).
    destruct (flip_ok input output true rmax rand G g Hrand HG Hw) as (r & g' & E & _ & H). by exists r, g'.
  Qed.

  Theorem activate_enables_one input output rmax rand G (l : list (genome W)) m g :
    1 <= input -> 1 <= output -> rand_ok rmax rand -> reachable one input output (G, l) -> l !! m = Some g ->
    exists r g', flip_random_connection false rmax rand g (gl_conns G) = Some (r, g') /\
      if r : bool then flip_effect false g g' else g' = g /\ forall num a b w, ~ has_gene g num a b false w.
  Proof.
    intros Hi Ho Hrand Hr Hm. destruct (reachable_genome one _ _ _ _ _ _ Hi Ho Hr Hm) as (HG & Hw & _).
    destruct (flip_ok input output false rmax rand G g Hrand HG Hw) as (r & g' & E & _ & H). by exists r, g'.
  Qed.

  (** activate_connections: each disabled connection is enabled or not as one of the coin tosses
      says; the result is true exactly when one was enabled; nothing else changes. *)
  Theorem activate_many_enables input output rmax rand coin G (l : list (genome W)) m g :
    1 <= input -> 1 <= output -> rand_ok rmax rand -> reachable one input output (G, l) -> l !! m = Some g ->
    exists r g' (toss : nat -> bool),
      activate_connections rmax rand coin g (gl_conns G) = Some (r, g') /\
      (forall num, exists i, toss num = coin i) /\ node_numbers g' = node_numbers g /\
      (forall num a b e w, has_gene g' num a b e w <->
         exists e0, has_gene g num a b e0 w /\ e = (e0 || toss num)) /\
      (r = true <-> exists num a b w, has_gene g num a b false w /\ has_gene g' num a b true w).
  Proof.
    intros Hi Ho Hrand Hr Hm. destruct (reachable_genome one _ _ _ _ _ _ Hi Ho Hr Hm) as (HG & Hw & _).
    destruct (activate_many_ok input output rmax rand coin G g Hrand HG Hw) as (r & g' & E & _ & N & R & C & HC & H).
    by exists r, g', C.
  Qed.

  (** connections_mutation: every weight is changed exactly once, by one of the random changes;
      nothing else changes. *)
  Theorem weights_change_once input output (f : nat -> W -> W) G (l : list (genome W)) m g :
    1 <= input -> 1 <= output -> reachable one input output (G, l) -> l !! m = Some g ->
    exists g' (change : nat -> W -> W), connections_mutation g (gl_conns G) f = Some g' /\
      (forall num, exists i, change num = f i) /\ node_numbers g' = node_numbers g /\
      forall num a b e w', has_gene g' num a b e w' <-> exists w, has_gene g num a b e w /\ w' = change num w.
  Proof.
    intros Hi Ho Hr Hm. destruct (reachable_genome one _ _ _ _ _ _ Hi Ho Hr Hm) as (HG & Hw & _).
    destruct (weights_ok input output G g f HG Hw) as (g' & E & _ & N & F & HF & H). by exists g', F.
  Qed.

  (** copy_genome: the same nodes in the same order and the same connections. *)
  Theorem copy_copies input output G (l : list (genome W)) m g :
    1 <= input -> 1 <= output -> reachable one input output (G, l) -> l !! m = Some g ->
    exists g', copy_genome g = Some g' /\ node_numbers g' = node_numbers g /\
      forall num a b e w, has_gene g' num a b e w <-> has_gene g num a b e w.
  Proof.
    intros Hi Ho Hr Hm. destruct (reachable_genome one _ _ _ _ _ _ Hi Ho Hr Hm) as (HG & Hw & _).
    destruct (copy_ok input output G g Hw) as (g' & E & _ & N & H). by exists g'.
  Qed.

  (** adjust_genome: same nodes and connections; the nodes, and the connections of every node, are
      in the order of their numbers. *)
  Theorem adjust_sorts input output G (l : list (genome W)) m g :
    1 <= input -> 1 <= output -> reachable one input output (G, l) -> l !! m = Some g ->
    exists g', adjust_genome g = Some g' /\ tidied g g'.
  Proof.
    intros Hi Ho Hr Hm. destruct (reachable_genome one _ _ _ _ _ _ Hi Ho Hr Hm) as (HG & Hw & _).
    destruct (adjust_ok input output G g Hw) as (g' & E & _ & H & _). by exists g'.
  Qed.

  (** crossover: the child has the nodes and the connections of both parents; what both have comes
      from the one that the coin tosses choose. *)
  Theorem crossover_mixes input output coin G (l : list (genome W)) m m' g g' :
    1 <= input -> 1 <= output -> reachable one input output (G, l) -> l !! m = Some g -> l !! m' = Some g' ->
    exists child choose, crossover coin g g' (gl_conns G) (gl_nodes G) = Some child /\
      (forall num, exists i j, choose num = coin i j) /\ child_of choose g g' child.
  Proof.
    intros Hi Ho Hr Hm Hm'. destruct (reachable_genome one _ _ _ _ _ _ Hi Ho Hr Hm) as (HG & Hw & _).
    destruct (reachable_genome one _ _ _ _ _ _ Hi Ho Hr Hm') as (_ & Hw' & _).
    destruct (crossover_ok input output coin G g g' HG Hw Hw') as (child & choose & E & _ & H).
    by exists child, choose.
  Qed.

  (** free_genome gives every connection of the genome to free exactly once. *)
  Theorem free_frees_once input output G (l : list (genome W)) m g :
    1 <= input -> 1 <= output -> reachable one input output (G, l) -> l !! m = Some g ->
    exists ks, free_genome g (gl_conns G) = Some ks /\ ks ≡ₚ seq 0 (length (g_conns g)).
  Proof.
    intros Hi Ho Hr Hm. destruct (reachable_genome one _ _ _ _ _ _ Hi Ho Hr Hm) as (HG & Hw & _).
    by apply (get_connections_ok input output).
  Qed.

  (** activate_bias reads bias flags that no function has written: it has undefined behaviour on
      every reachable genome. *)
  Theorem bias_flags_are_initialised_refuted input output rmax rand G (l : list (genome W)) m g :
    1 <= input -> 1 <= output -> rand_ok rmax rand -> reachable one input output (G, l) -> l !! m = Some g ->
    activate_bias rmax rand g = None.
  Proof.
    intros Hi Ho Hrand Hr Hm. destruct (reachable_genome one _ _ _ _ _ _ Hi Ho Hr Hm) as (HG & Hw & Hu).
    apply activate_bias_ok; [done| |done]. intros E. destruct (wf_base _ _ _ _ Hw 0 ltac:(lia)) as (n & Hn & _).
    rewrite E in Hn. done.
  Qed.
End props.

(** ** A concrete history *)

Definition first_ : nat -> Z := fun _ => 0%Z.
Definition last_ : nat -> Z := fun _ => 9%Z.

(** Two genomes get the connection 1 -> 2 and split it; the first then gets the connection from the
    new node to itself; the second gets new weights; they are crossed. *)
Definition demo : list (call nat) :=
  [New; New; Connect 0 9 first_ first_ 5; Connect 1 9 first_ first_ 7; Split 0 9 first_; Split 1 9 last_;
   Connect 0 9 last_ last_ 8; Weights 1 (fun i w => w + 10 * i); Cross 0 1 (fun i j => i =? 1); Copy 2; Discard 3;
   Remove 1 9 first_; ActivateMany 1 9 last_ (fun _ => true); Tidy 2].

Example demo_possible : Forall possible demo.
Proof.
  assert (H1 : rand_ok 9 first_) by (intros k; unfold first_; lia).
  assert (H2 : rand_ok 9 last_) by (intros k; unfold last_; lia).
  unfold demo. repeat (apply list.Forall_cons; split; [cbn; done|]). by apply Forall_nil.
Qed.

Definition show (P : population (W := nat)) :=
  (gl_mconns (fst P),
   map (fun g => (node_numbers g, map (fun c => (c_inn c, c_flag c, c_weight c)) (g_conns g))) (snd P)).

Example demo_runs :
  option_map show (history 1 1 1 (init_globals 1 1, []) demo) =
  Some ([(1, 2); (1, 3); (3, 2); (3, 3)],
        [([1; 2; 3], [(1, false, 5); (2, true, 1); (3, true, 5); (4, true, 8)]);
         ([1; 2; 3], [(1, true, 7); (2, true, 11); (3, true, 27)]);
         ([1; 2; 3], [(1, false, 5); (3, true, 5); (2, true, 11); (4, true, 8)])]).
Proof. vm_compute. reflexivity. Qed.

(** Two inputs: the child of the genome that split 2 -> 3 (node 5) and of the one that split 1 -> 3
    (node 4) has its nodes out of order, until it is tidied. *)
Definition demo2 : list (call nat) :=
  [New; New; Connect 0 9 first_ first_ 5; Connect 1 9 last_ last_ 7; Split 0 9 first_; Split 1 9 first_;
   Cross 1 0 (fun i j => false)].
Example demo2_runs :
  option_map (fun P => map node_numbers (snd P)) (history 1 2 1 (init_globals 2 1, []) demo2) =
    Some [[1; 2; 3; 4]; [1; 2; 3; 5]; [1; 2; 3; 5; 4]] /\
  option_map (fun P => map node_numbers (snd P)) (history 1 2 1 (init_globals 2 1, []) (demo2 ++ [Tidy 2])) =
    Some [[1; 2; 3; 4]; [1; 2; 3; 5]; [1; 2; 3; 4; 5]].
Proof. vm_compute. done. Qed.

(** Genomes are not kept free of cycles: a node can be connected to itself. *)
Theorem genomes_stay_feed_forward_refuted :
  exists (P : population (W := nat)) g num a w,
    reachable 1 1 1 P /\ g ∈ snd P /\ has_gene g num a a true w.
Proof.
  destruct (history 1 1 1 (init_globals 1 1, []) demo) as [P|] eqn:E; [|by vm_compute in E].
  assert (Hr : reachable 1 1 1 P) by (exists demo; split; [apply demo_possible|done]).
  destruct (snd P !! 0) as [g|] eqn:Eg.
  - exists P, g, 4, 3, 8. split; [done|]. split; [by eapply elem_of_list_lookup_2|].
    vm_compute in E. apply (inj Some) in E. subst P. vm_compute in Eg. apply (inj Some) in Eg. subst g.
    exists 3, 2, 2, (mkNode 3 [1; 3] [2; 3] None), (mkNode 3 [1; 3] [2; 3] None). done.
  - vm_compute in E. apply (inj Some) in E. subst P. by vm_compute in Eg.
Qed.

Print Assumptions histories_are_well_formed.
Print Assumptions same_number_same_connection.
Print Assumptions connections_join_the_right_nodes.
Print Assumptions split_splits.
Print Assumptions same_split_same_numbers.
Print Assumptions connect_connects.
Print Assumptions remove_disables_one.
Print Assumptions activate_enables_one.
Print Assumptions activate_many_enables.
Print Assumptions weights_change_once.
Print Assumptions copy_copies.
Print Assumptions adjust_sorts.
Print Assumptions crossover_mixes.
Print Assumptions free_frees_once.
Print Assumptions bias_flags_are_initialised_refuted.
Print Assumptions genomes_stay_feed_forward_refuted.
