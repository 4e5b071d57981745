From Verif Require Import Base BaseLemmas Neat_Model Neat_Spec Mcts_Model Ff_Model Ff_Proofs Ff2_Proofs Ff3_Proofs Ff4_Proofs.
Open Scope nat_scope.

(** * More fuel does not change a result *)
Section mono.
Context {F : Type} (O : num F) (sig : F -> F) (g : genome F).

Ltac bm H := eapply bind_mono; [exact H|clear H|clear H]; [|intros ? H; cbv beta in H; try cbv beta].
Ltac same := let H := fresh in (intros ? H; exact H).

Lemma recon_S fuel : forall a h len ls gj r, recon fuel g a h len ls gj = Some r -> recon (S fuel) g a h len ls gj = Some r.
Proof.
  induction fuel as [|fuel IH]; intros a h len ls gj r H; [done|]. remember (S fuel) as fu eqn:Efu. cbn [recon] in *. rewrite Efu in H. cbn [recon] in H.
  bm H; [same|]. revert H; destruct (decide (_ < _)); intros H; [done|]. bm H; [same|]. destruct a1; [done|]. bm H; [same|]. bm H; [same|]. revert H; match goal with |- context [forallb negb ?z] => destruct (forallb negb z) end; intros H; [done|].
  bm H; [same|]. bm H; [|done].
  intros st Hst. eapply each_mono; [|exact Hst]. clear Hst. intros [[[a4 ls'] gj'] j] c r' H'. bm H'; [same|]. revert H'; match goal with |- context [c_flag ?z] => destruct (c_flag z) end; intros H'; [|done].
  bm H'; [|done]. intros q Hq. subst fu. by apply IH.
Qed.
Lemma compute_S fuel : forall array h via s r, compute O sig fuel g array h via s = Some r -> compute O sig (S fuel) g array h via s = Some r.
Proof.
  induction fuel as [|fuel IH]; intros array h via s r H; [done|]. remember (S fuel) as fu eqn:Efu. cbn [compute] in *. rewrite Efu in H. cbn [compute] in H.
  bm H; [same|]. bm H; [same|]. bm H; [same|]. destruct a1; [done|]. bm H; [same|]. bm H.
  { intros st Hst. eapply each_mono; [|exact Hst]. clear Hst. intros q c r' H'. bm H'; [same|]. revert H'; destruct (_ =? _)%Z; intros H'; [|done].
    bm H'; [same|]. bm H'; [same|]. bm H'; [|done]. intros z Hz. subst fu. by apply IH. }
  bm H; [same|]. bm H; [|done].
  intros st Hst. eapply each_mono; [|exact Hst]. clear Hst. intros q c r' H'. bm H'; [same|]. revert H'; destruct (_ =? _)%Z; intros H'; [|done].
  bm H'; [same|]. bm H'; [same|]. destruct a6; [|done]. bm H'; [same|]. bm H'; [same|]. bm H'; [same|]. bm H'; [|done]. intros z Hz. subst fu. by apply IH.
Qed.
End mono.

Lemma recon_more {F} (g : genome F) f f' a h len ls gj r : f <= f' -> recon f g a h len ls gj = Some r -> recon f' g a h len ls gj = Some r.
Proof. induction 1; [done|]. intros. apply recon_S. auto. Qed.
Lemma compute_more {F} (O : num F) sig g f f' array h via s r : f <= f' -> compute O sig f g array h via s = Some r -> compute O sig f' g array h via s = Some r.
Proof. induction 1; [done|]. intros. apply compute_S. auto. Qed.

Section ff.
Context {F : Type} (O : num F) (sig : F -> F).
Ltac bm H := eapply bind_mono; [exact H|clear H|clear H]; [|intros ? H; cbv beta in H; try cbv beta].
Ltac same := let H := fresh in (intros ? H; exact H).

Lemma feed_forward_more g1 inputs N f f' out : f <= f' -> feed_forward O sig f g1 inputs N = Some out -> feed_forward O sig f' g1 inputs N = Some out.
Proof.
  intros Hf H. unfold feed_forward in *. bm H; [same|]. rename a into g. bm H.
  { intros ls Hls. unfold reconstruct in *. bm Hls; [|done]. intros st Hst. eapply for_mono; [|exact Hst]. intros i s r H. bm H; [|done]. intros q Hq. by eapply recon_more. }
  assert (HI : forall array s r, run_inputs O sig f g array s = Some r -> run_inputs O sig f' g array s = Some r).
  { intros array s r H'. unfold run_inputs in *. eapply for_mono; [|exact H']. clear H'. intros i q r' H'. cbv beta in H'; cbv beta. bm H'; [same|]. bm H'; [same|]. destruct a1; [|done].
    bm H'; [|done]. intros z Hz. by eapply compute_more. }
  assert (HE : forall array ls s r, run_ends O sig f g array ls s = Some r -> run_ends O sig f' g array ls s = Some r).
  { intros array ls s r H'. unfold run_ends in *. rewrite all_lists_concat in *. eapply each_mono; [|exact H']. clear H'. intros q l r' H'. cbv beta in H'; cbv beta. revert H'; destruct (_ =? _)%Z; intros H'; [|done].
    bm H'; [same|]. bm H'; [|done]. intros z Hz. by eapply compute_more. }
  bm H; [same|]. destruct a0 as [[array s] storing]. bm H; [same|]. bm H; [same|]. bm H; [same|]. bm H; [apply HI|]. bm H; [apply HE|]. bm H; [|done].
  destruct storing; [|same]. intros q H'. unfold second_pass in *. bm H'; [same|]. bm H'; [same|]. bm H'; [same|]. bm H'; [same|]. bm H'; [same|]. bm H'.
  { intros z Hz. rewrite all_lists_concat in *. eapply each_mono; [|exact Hz]. clear Hz. intros q1 l r' H'. cbv beta in H'; cbv beta. revert H'; destruct (_ =? _)%Z; intros H'; [|done]. bm H'; [same|]. bm H'; [|done].
    intros z' Hz'. by eapply compute_more. }
  bm H'; [apply HI|]. by apply HE.
Qed.

Definition start (g : genome F) : ev := Ev (replicate (length (g_nodes g)) (n_z O 0)) (replicate (length (g_nodes g)) (n_z O 0)) (replicate (length (g_nodes g)) false)
             ((fun c : conn F => if c_flag c then 1%Z else 0%Z) <$> g_conns g).
Lemma start_ok g : ok g (start g).
Proof. unfold ok, start. cbn. rewrite !replicate_length, fmap_length. done. Qed.
Lemma start_sub g U : sub U (start g).
Proof. intros k H. cbn in H. rewrite list_lookup_fmap in H. destruct (g_conns g !! k) as [c|]; [|done]. cbn in H. by destruct (c_flag c). Qed.

Definition enough (N : nat) (g : genome F) : nat := N + length (g_conns g) * (length (g_nodes g) + 2) + length (g_nodes g) + 2.

Lemma feed_forward_total N g1 g inputs fuel : copy_genome g1 = Some g -> okg N g -> g_input g <= length inputs -> enough N g <= fuel ->
  exists out, feed_forward O sig fuel g1 inputs N = Some out /\ length out = g_output g.
Proof.
  intros Ec Hg Hinp Hf. unfold enough in Hf. unfold feed_forward. rewrite Ec. cbn [mbind option_bind].
  rewrite (reconstruct_ok N g Hg) by lia. cbn [mbind option_bind]. set (lists := the_lists N g fuel). cbv zeta.
  assert (Hls : forall l, l ∈ mjoin lists -> isl N g l) by (intros l Hl; by apply (lists_isl N g Hg fuel) in Hl; [|lia]).
  fold (start g). rewrite all_lists_concat.
  destruct (mark_ok N g Hg (mjoin lists) (start g) Hls (start_ok g)) as (array & s1 & storing & -> & Ha & Hok1 & Ecf & _ & _ & Hm & _). cbn [mbind option_bind].
  assert (Hs1 : ok g s1 /\ sub (used N g) s1). { split; [done|]. intros k. rewrite Ecf. apply start_sub. }
  assert (Hmark : forall v, v < length (g_nodes g) -> ends N g v -> array !! nmb g v = Some true).
  { intros v Hv He. apply Hm; [done|]. apply ends_isl in He as (l & Hl & ? & ?). exists l. split; [|done]. apply (lists_isl N g Hg); [lia|done]. }
  rewrite all_lists_concat.
  match goal with |- context [each ?f (mjoin lists) s1] => destruct (each_inv f (fun s => ok g s /\ sub (used N g) s) (mjoin lists) s1) as (s2 & -> & Hs2) end; [done| |].
  { intros l q Hl Hq. apply (activate_fine N g Hg); [auto|lia|done]. }
  cbn [mbind option_bind]. destruct (cut_fine N g Hg lists s2 Hls Hs2) as (s3 & -> & Hs3). cbn [mbind option_bind].
  destruct (set_inputs_fine N g Hg inputs s3 Hinp Hs3) as (s4 & -> & Hs4). cbn [mbind option_bind].
  assert (Hfuel : length (g_conns g) * (length (g_nodes g) + 2) + length (g_nodes g) + 1 < fuel) by lia.
  destruct (run_inputs_fine N g Hg O sig array Ha Hmark fuel Hfuel s4 Hs4) as (s5 & -> & Hs5). cbn [mbind option_bind].
  destruct (run_ends_fine N g Hg O sig array Ha Hmark fuel Hfuel lists s5 Hls Hs5) as (s6 & -> & Hs6). cbn [mbind option_bind].
  assert (H7 : exists s7, (if storing then second_pass O sig fuel g N inputs array lists s6 else Some s6) = Some s7 /\ ok g s7).
  { destruct storing; [|exists s6; tauto]. destruct (second_fine N g Hg O sig array Ha Hmark fuel Hfuel inputs lists s6 Hls Hinp Hs6) as (s7 & -> & ? & _). eauto. }
  destruct H7 as (s7 & -> & Hok7). cbn [mbind option_bind]. pose proof (ok_size _ _ Hg) as Hsz.
  destruct (mapM (fun i => x ← rd (e_val s7) (i + g_input g); Some (sig (n_add O x (n_z O 1)))) (seq 0 (g_output g))) as [out|] eqn:Eo.
  - exists out. split; [done|]. apply mapM_length in Eo. rewrite <- Eo. apply seq_length.
  - apply mapM_None in Eo. apply list.Exists_exists in Eo as (i & Hi & Ei). apply elem_of_seq in Hi.
    destruct (rd_Some (e_val s7) (i + g_input g)) as [x Ex]; [destruct Hok7; lia|]. by rewrite Ex in Ei.
Qed.
End ff.
