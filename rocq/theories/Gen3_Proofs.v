From Coq Require Import Reals Lra.
From Verif Require Import Base BaseLemmas Shuffle_Model Shuffle_Spec Shuffle_Proofs Sort_Model Sort_Proofs Neat_Model Neat_Spec Neat_Proofs Tidy_Proofs.
From Verif Require Import Neat2_Proofs Neat3_Proofs Neat4_Proofs Neat5_Proofs Neat6_Proofs Species_Model Species_Spec Species_Proofs Species2_Proofs.
From Verif Require Import Gen_Model Gen_Spec Gen_Proofs Gen2_Proofs.
Open Scope nat_scope.

Lemma fittest_ok gs : gs <> [] -> exists b, fittest gs = Some b /\ is_fittest gs b.
Proof.
  destruct gs as [|x gs]; [done|]. intros _. cbn. eexists. split; [done|].
  cut (forall b, (foldl (fun b y => if Rlt_dec (i_fitness b) (i_fitness y) then y else b) b gs = b \/
                  foldl (fun b y => if Rlt_dec (i_fitness b) (i_fitness y) then y else b) b gs ∈ gs) /\
         (i_fitness b <= i_fitness (foldl (fun b y => if Rlt_dec (i_fitness b) (i_fitness y) then y else b) b gs))%R /\
         forall y, y ∈ gs -> (i_fitness y <= i_fitness (foldl (fun b y => if Rlt_dec (i_fitness b) (i_fitness y) then y else b) b gs))%R).
  { intros H. destruct (H x) as (H1 & H2 & H3). split.
    - destruct H1 as [->|H1]; [constructor|by constructor].
    - intros y Hy. apply elem_of_cons in Hy as [->|Hy]; [done|by apply H3]. }
  induction gs as [|y gs IH]; intros b; cbn.
  - split; [by left|]. split; [lra|]. intros y Hy. by apply elem_of_nil in Hy.
  - destruct (Rlt_dec (i_fitness b) (i_fitness y)) as [Hlt|Hge].
    + destruct (IH y) as (H1 & H2 & H3). split; [right; destruct H1 as [->|H1]; [constructor|by constructor]|]. split; [lra|].
      intros z Hz. apply elem_of_cons in Hz as [->|Hz]; [done|by apply H3].
    + destruct (IH b) as (H1 & H2 & H3). split; [destruct H1 as [->|H1]; [by left|right; by constructor]|]. split; [lra|].
      intros z Hz. apply elem_of_cons in Hz as [->|Hz]; [lra|by apply H3].
Qed.

Section evolution.
  Context (c : settings) (ip op initial : nat) (Hv : valid c ip op initial).

  (** what holds between two calls *)
  Record steady (st : neat) : Prop := {
    st_tables : consistent ip op (n_globals st);
    st_genomes : Forall (fine ip op (n_globals st)) (n_gg st);
    st_some : 1 <= length (n_gg st);
    st_room : length (n_gg st) <= capacity c;
    st_species : Forall (fine_specie ip op (n_globals st)) (n_species st);
    st_members : length (members (n_species st)) <= max_pop c;
    st_placed : well_placed (threshold c) (n_species st) }.

  Lemma evaluate_steady f st : steady st -> steady (evaluate f st).
  Proof.
    intros [A B C D E F K]. constructor; cbn; try done; try by rewrite imap_length.
    apply list.Forall_forall. intros x Hx. apply elem_of_lookup_imap in Hx as (i & y & -> & Hy). exact (Forall_lookup_1 _ _ _ _ B Hy).
  Qed.

  Lemma run_ok lk st :
    possible_gen lk -> steady st ->
    exists l st' best before x,
      neat_generation_run c lk false st = Some st' /\ steady st' /\ extends (n_globals st) (n_globals st') /\
      is_fittest (n_gg st) best /\ n_gg st' = before ++ [x] /\ same_genome (i_genome best) (i_genome x) /\
      Forall (fun y => i_fitness y = 0%R /\ increasing (node_numbers (i_genome y))) (n_gg st') /\
      length (n_species st') * children c <= length before <= length (n_species st') * (50 * children c + 2) /\
      length (n_species st') <= 2 * max_pop c /\ members (n_species st') = [] /\
      (exists gs gs' copies rest, gs ++ rest ≡ₚ n_gg st /\ length gs = Nat.min (max_pop c) (length (n_gg st)) /\
        gs' ≡ₚ rescale (i_fitness (nth 0 (n_gg st) best)) (i_fitness best) gs /\
        Forall2 twin gs' copies /\ (members l ≡ₚ members (n_species st) ++ copies) /\ well_placed (threshold c) l /\
        (forall s, s ∈ l -> s_members s <> []) /\
        speciate c lk (gl_conns (n_globals st)) (rescale (i_fitness (nth 0 (n_gg st) best)) (i_fitness best) gs) (n_species st) = Some l /\
        length (n_species st') = length l).
  Proof using Hv.
    intros Hlk [A B C D E F K]. pose proof (capacity_large c ip op initial Hv) as [C1 C2]. unfold neat_generation_run.
    destruct (n_gg st) as [|first gg0] eqn:Egg; [cbn in C; lia|]. rewrite <- Egg in *.
    assert (Ef : rd (n_gg st) 0 = Some first) by by rewrite Egg. rewrite Ef. cbn [mbind option_bind].
    destruct (fittest_ok (n_gg st)) as (best & Eb & Hb); [by rewrite Egg|]. rewrite Eb. cbn [mbind option_bind].
    assert (Hbf : fine ip op (n_globals st) best) by (rewrite list.Forall_forall in B; apply B, Hb).
    destruct (copy_individual_ok ip op _ best Hbf) as (saved & -> & Hs & (_ & _ & Sb)). cbn [mbind option_bind].
    destruct (cut_ok c ip op _ (n_gg st) B) as (gs & rest & -> & P1 & Hgs & Lgs). cbn [mbind option_bind].
    assert (En : nth 0 (n_gg st) best = first) by by rewrite Egg.
    destruct (speciate_ok c ip op _ A lk (rescale (i_fitness first) (i_fitness best) gs) (n_species st) Hlk) as
      (l & gs' & copies & Esp & Hl & Hp & Hne & P2 & F2 & P3); [by apply rescale_fine|done|done|].
    rewrite Esp. cbn [mbind option_bind].
    assert (Hlen : length l <= 2 * max_pop c).
    { pose proof (members_length l Hne) as H1. rewrite (Permutation_length P3), app_length in H1.
      rewrite <- (Forall2_length _ _ _ F2), (Permutation_length P2) in H1. unfold rescale in H1. rewrite fmap_length in H1. lia. }
    destruct (reproduce_ok c ip op initial Hv lk (n_globals st) l Hlk A Hl Hne Hlen Hp) as (l' & G' & gg' & -> & He & HG' & Hl' & Hp' & Em & El & Hgg' & Lgg).
    cbn [mbind option_bind fst snd].
    destruct (finish_ok c ip op G' gg' saved Hgg') as (before & x & -> & Lb & H1 & H2 & H3).
    { destruct Hv. unfold capacity. nia. } { by eapply fine_extend. }
    cbn [mbind option_bind]. exists l. eexists _, best, before, x. split; [done|]. cbn [n_gg n_globals n_species]. split.
    - constructor; cbn [n_gg n_globals n_species]; try done.
      + rewrite app_length. cbn. lia.
      + rewrite app_length. cbn. destruct Hv. unfold capacity. nia.
      + rewrite Em. cbn. lia.
    - split; [done|]. split; [done|]. split; [done|]. split; [by eapply same_genome_trans|]. split; [done|]. rewrite El. split; [lia|]. split; [done|]. split; [done|].
      rewrite En. exists gs, gs', copies, rest. done.
  Qed.

  Lemma init_connect_ok lk n i G x :
    possible_init lk -> consistent ip op G -> fine ip op G x ->
    exists G' y, init_connect lk n i G x = Some (G', y) /\ extends G G' /\ consistent ip op G' /\ fine ip op G' y.
  Proof using Hv.
    intros Hlk HG [Hx Hr]. assert (1 <= ip) by apply Hv. assert (1 <= op) by apply Hv. unfold init_connect.
    pose (Q := fun (j : nat) (s : globals * genome R) => extends G (fst s) /\ consistent ip op (fst s) /\ well_formed ip op (fst s) (snd s)).
    match goal with |- context [for_loop n 0 ?b ?s] => destruct (for_loop_inv Q b n 0 s) as ([G1 g1] & -> & H1 & H2 & H3) end.
    - split; [apply extends_refl|]. done.
    - intros j [G1 g1] Hj (H1 & H2 & H3). cbn [fst snd] in *. destruct (Hlk i j) as [R1 R2].
      destruct (add_ok ip op (il_rmax lk) (il_add1 lk i j) (il_add2 lk i j) (il_w lk i j) G1 g1) as (r & G2 & g2 & -> & HG2 & He2 & H4 & _); try done.
      cbn [mbind option_bind fst snd]. eexists. split; [done|]. split; [by eapply extends_trans|]. done.
    - cbn [mbind option_bind fst snd] in *. destruct (weights_ok ip op G1 g1 (il_weights lk i) H2 H3) as (g & -> & H4 & _).
      cbn [mbind option_bind]. eexists _, _. split; [done|]. split; [done|]. split; [done|]. by split.
  Qed.

  Lemma init_ok lk : possible_init lk -> exists st, init c lk ip op initial = Some st /\ steady st /\ length (n_gg st) = initial /\ Forall (fun s => s_members s <> []) (n_species st).
  Proof using Hv.
    intros Hlk. pose proof (capacity_large c ip op initial Hv) as [C1 C2]. destruct (v_initial _ _ _ _ Hv) as [I1 I2].
    pose proof (consistent_init ip op) as HG0. unfold init.
    destruct (copy_individual_ok ip op (init_globals ip op) (mkInd (init_genome ip op) 0 0)) as (x0 & -> & Hx0 & _).
    { split; [apply wf_init|done]. }
    cbn [mbind option_bind].
    pose (Q := fun (j : nat) (s : globals * list individual) => extends (init_globals ip op) (fst s) /\ consistent ip op (fst s) /\
                 Forall (fine ip op (fst s)) (snd s) /\ length (snd s) = j).
    match goal with |- context [for_loop ?n 1 ?b ?s] => destruct (for_loop_inv Q b n 1 s) as ([G1 gg1] & -> & H1 & H2 & H3 & H4) end.
    - split; [apply extends_refl|]. split; [done|]. split; [by apply list.Forall_singleton|done].
    - intros i [G1 gg1] Hi (H1 & H2 & H3 & H4). cbn [fst snd] in *.
      destruct (copy_individual_ok ip op G1 x0) as (x & -> & Hx & _); [by eapply fine_extend|]. cbn [mbind option_bind].
      destruct (init_connect_ok lk (ip * op) i G1 x Hlk H2 Hx) as (G2 & y & -> & He & HG2 & Hy). cbn [mbind option_bind fst snd].
      unfold push. rewrite decide_True by lia. cbn [mbind option_bind]. eexists. split; [done|]. split; [by eapply extends_trans|].
      split; [done|]. cbn [fst snd]. split; [|rewrite app_length; cbn; lia].
      apply Forall_app. split; [by eapply fine_extend_all|by apply list.Forall_singleton].
    - cbn [mbind option_bind fst snd] in *.
      destruct (init_connect_ok lk (ip * op) 0 G1 x0 Hlk H2) as (G2 & y & -> & He & HG2 & Hy); [by eapply fine_extend|]. cbn [mbind option_bind fst snd].
      rewrite wr_Some by lia. cbn [mbind option_bind].
      assert (Hgg : Forall (fine ip op G2) (<[0:=y]> gg1)) by (apply Forall_insert; [by eapply fine_extend_all|done]).
      destruct (create_ok ip op G2 HG2 (threshold c) _ Hgg) as (l & Ec & Hl & Hp & Lm). rewrite Ec. cbn [mbind option_bind].
      rewrite insert_length in Lm.
      eexists. split; [done|]. split; [|split].
      + constructor; cbn [n_gg n_globals n_species]; try done; rewrite ?insert_length; lia.
      + cbn. rewrite insert_length. lia.
      + cbn. clear -Ec. unfold create_species in Ec. eapply (each_pres _ (fun l => Forall (fun s => s_members s <> []) l)); [|exact Ec|by apply Forall_nil].
        intros l1 x l2 E Hl1. apply bind_Some in E as (r & _ & E). destruct r; [by simplify_eq|]. apply bind_Some in E as (s & Es & E). simplify_eq.
        apply Forall_app. split; [done|]. apply list.Forall_singleton. unfold found_specie in Es.
        apply bind_Some in Es as (? & _ & Es). apply bind_Some in Es as (? & _ & Es). by simplify_eq.
  Qed.

  Lemma generations_ok runs : forall st,
    Forall (fun r => possible_gen (snd r)) runs -> steady st -> exists st', generations c st runs = Some st' /\ steady st'.
  Proof using Hv.
    induction runs as [|[f k] runs IH]; intros st Hr Hs.
    - by exists st.
    - apply list.Forall_cons in Hr as [Hk Hr]. cbn [generations].
      destruct (run_ok k (evaluate f st) Hk (evaluate_steady f st Hs)) as (l & st1 & best & before & x & -> & Hs1 & _).
      cbn [mbind option_bind]. by apply IH.
  Qed.

  Lemma evolved_ok st : evolved c ip op initial st -> steady st.
  Proof using Hv.
    intros (start & runs & Hi & Hr & E). unfold evolution in E. destruct (init_ok start Hi) as (st0 & E0 & H0 & _).
    rewrite E0 in E. cbn [mbind option_bind] in E. destruct (generations_ok runs st0 Hr H0) as (st' & E' & H').
    rewrite E in E'. apply (inj Some) in E'. by subst st'.
  Qed.
End evolution.
