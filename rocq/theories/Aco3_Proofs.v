(** init_aco builds the rows of its layers one behind the other. *)
From Verif Require Import BaseLemmas Aco_Model Aco_Proofs Aco2_Proofs.
Open Scope nat_scope.

(** a layer: input, output, width, activation *)
Notation lplan := (nat * nat * nat * option nat)%type.
Definition lsize (p : lplan) : nat := p.1.2 * (p.1.1.1 * p.1.1.2) + 1 + length (act_order p.2).
Definition lok (p : lplan) : Prop := 0 < p.1.2 /\ 0 < p.1.1.1 * p.1.1.2.
Definition prows (base : nat) (p : lplan) : list (nat * list nat) := lrows base p.1.2 (p.1.1.1 * p.1.1.2) p.2.
Fixpoint rows_all (base : nat) (ps : list lplan) : list (nat * list nat) :=
  match ps with [] => [] | p :: ps => prows base p ++ rows_all (base + lsize p) ps end.
Fixpoint ids_all (base : nat) (ps : list lplan) : list (list nat) :=
  match ps with [] => [] | p :: ps => seq base (p.1.2 * p.1.1.1 * p.1.1.2) :: ids_all (base + lsize p) ps end.
Fixpoint psum (ps : list lplan) : nat := match ps with [] => 0 | p :: ps => lsize p + psum ps end.
Lemma rows_all_app base ps qs : rows_all base (ps ++ qs) = rows_all base ps ++ rows_all (base + psum ps) qs.
Proof.
  revert base. induction ps as [|p ps IH]; intros base; [cbn; by rewrite Nat.add_0_r|]. cbn [app rows_all]. rewrite IH, <- app_assoc. do 3 f_equal. cbn [psum]. lia.
Qed.
Lemma ids_all_app base ps qs : ids_all base (ps ++ qs) = ids_all base ps ++ ids_all (base + psum ps) qs.
Proof.
  revert base. induction ps as [|p ps IH]; intros base; [cbn; by rewrite Nat.add_0_r|]. cbn [app ids_all]. rewrite IH. cbn [app psum]. do 3 f_equal. lia.
Qed.

Section init.
Context {F : Type} (O : num F).
Definition pbodies (rnd : nat -> F) (base : nat) (p : lplan) : list (body F) := lbodies O rnd base p.1.1.1 p.1.1.2 p.1.2 p.2.
Fixpoint bodies_all (rnd : nat -> F) (base : nat) (ps : list lplan) : list (body F) :=
  match ps with [] => [] | p :: ps => pbodies rnd base p ++ bodies_all rnd (base + lsize p) ps end.
Lemma pbodies_length rnd base p : length (pbodies rnd base p) = lsize p.
Proof. unfold pbodies, lsize. rewrite lbodies_length. done. Qed.
Lemma bodies_all_length rnd base ps : length (bodies_all rnd base ps) = psum ps.
Proof. revert base. induction ps as [|p ps IH]; intros base; [done|]. cbn [bodies_all]. rewrite app_length, pbodies_length, IH. done. Qed.
Lemma bodies_all_app rnd base ps qs : bodies_all rnd base (ps ++ qs) = bodies_all rnd base ps ++ bodies_all rnd (base + psum ps) qs.
Proof.
  revert base. induction ps as [|p ps IH]; intros base; [cbn; by rewrite Nat.add_0_r|]. cbn [app bodies_all]. rewrite IH, <- app_assoc. do 3 f_equal. cbn [psum]. lia.
Qed.

Lemma wrows_nodes base w d : mjoin (wrows base w d).*2 = seq base (w * d).
Proof.
  induction d as [|d IH]; [by rewrite Nat.mul_0_r|]. rewrite wrows_S, fmap_app, join_app, IH. cbn. rewrite app_nil_r. unfold wrow.
  replace (w * S d) with (w * d + w) by lia. rewrite seq_app. do 2 f_equal. lia.
Qed.
Lemma prows_nodes base p : mjoin (prows base p).*2 ≡ₚ seq base (lsize p).
Proof.
  unfold prows, lrows, lsize. rewrite fmap_app, join_app, wrows_nodes, !seq_app. cbn [fmap list_fmap snd mjoin list_join app]. rewrite <- app_assoc.
  apply Permutation_app_head. cbn [app]. apply Permutation_skip. rewrite app_nil_r.
  destruct p.2 as [a|]; cbn [act_order fmap list_fmap length seq app].
  - replace (base + (p.1.2 * (p.1.1.1 * p.1.1.2) + 1)) with (base + p.1.2 * (p.1.1.1 * p.1.1.2) + 1 + 0) by lia. done.
  - set (b := base + p.1.2 * (p.1.1.1 * p.1.1.2) + 1).
    replace (base + (p.1.2 * (p.1.1.1 * p.1.1.2) + 1)) with b by (unfold b; lia).
    rewrite !(Nat.add_comm b). cbn [plus]. do 3 apply Permutation_skip. etrans; [|apply (Permutation_app_comm [S (S (S (S (S b))))] [S (S (S b)); S (S (S (S b)))])]. done.
Qed.
Lemma prows_ne base p : lok p -> Forall (fun r : nat * list nat => r.2 <> []) (prows base p).
Proof.
  intros [Hw _]. unfold prows, lrows. apply Forall_app. split.
  - unfold wrows. apply Forall_fmap, list.Forall_forall. intros k _. cbn. unfold wrow. destruct p.1.2; [lia|done].
  - repeat (apply list.Forall_cons; split; [cbn; by destruct p.2|]). by apply list.Forall_nil.
Qed.
Lemma prows_head base p : lok p -> exists tl, prows base p = (opCopy, seq base p.1.2) :: tl.
Proof.
  intros [Hw Hd]. unfold prows, lrows. destruct (p.1.1.1 * p.1.1.2) as [|d]; [lia|]. unfold wrows. cbn. eexists. unfold wrow. rewrite Nat.add_0_r. done.
Qed.
Lemma prows_tail base p : exists l, prows base p = l ++ [(opExecute, [base + p.1.2 * (p.1.1.1 * p.1.1.2)]); (opExecute, (fun j => base + p.1.2 * (p.1.1.1 * p.1.1.2) + 1 + j) <$> act_order p.2)].
Proof. by eexists. Qed.
Lemma from_links_range rows u : u ∉ rows_nodes rows -> from_ u (links rows) = [].
Proof. apply from_links_out. Qed.

(** what holds before and after a layer is attached *)
Definition shaped (rows : list (nat * list nat)) (bs : list (body F)) : Prop :=
  rows = [(0, [0])] \/ exists l o f ra input output, rows = l ++ [(o, [f]); ra] /\ bs !! f = Some (Fcl input output).
Lemma attach_layer_ok junk rnd bs ts rows p : lay bs ts rows -> rows !! 0 = Some (0, [0]) -> shaped rows bs -> lok p ->
  exists ts', attach_layer O junk rnd 0 p.1.1.1 p.1.1.2 p.1.2 p.2 (mk O bs ts) =
      Some (mk O (bs ++ pbodies rnd (length bs) p) ts', seq (length bs) (p.1.2 * p.1.1.1 * p.1.1.2)) /\
    lay (bs ++ pbodies rnd (length bs) p) ts' (rows ++ prows (length bs) p) /\ shaped (rows ++ prows (length bs) p) (bs ++ pbodies rnd (length bs) p).
Proof.
  intros H Hroot Hs [Hw Hd]. destruct p as [[[input output] w] act]. cbn [fst snd] in *. unfold attach_layer, pbodies, prows. cbn [fst snd].
  destruct (nodes_to_attach_mk O rnd input output w act bs ts (lay_wf _ _ _ H) Hw Hd) as [-> Wn]. cbn [mbind option_bind].
  set (bs' := bs ++ lbodies O rnd (length bs) input output w act) in *. set (new := links (lrows (length bs) w (input * output) act)) in *.
  pose proof (prows_nodes (length bs) (input, output, w, act)) as Pn. unfold prows in Pn. cbn [fst snd] in Pn.
  assert (Lbs : length bs' = length bs + lsize (input, output, w, act)) by (unfold bs'; rewrite app_length, lbodies_length; done).
  assert (Hnew : forall u, u < length bs -> from_ u new = []).
  { intros u Hu. unfold new. apply from_links_out. rewrite Pn. intros E. apply elem_of_seq in E. lia. }
  assert (Hdw : w <= w * input * output) by (rewrite <- Nat.mul_assoc; pose proof (Nat.mul_le_mono_l 1 (input * output) w); lia).
  destruct (attach_to_root_ok O junk bs ts rows bs' new w (seq (length bs) (w * input * output)) (seq (length bs) w)) as (A & EA & ->); try done.
  { lia. }
  { rewrite seq_length. done. }
  { replace (w * input * output) with (w + (w * input * output - w)) by lia. rewrite seq_app, take_app_alt by (by rewrite seq_length). done. }
  { apply list.Forall_forall. intros b Hb. apply elem_of_seq in Hb. rewrite Lbs. unfold lsize. cbn [fst snd]. lia. }
  { destruct Hs as [->|(l & o & f & ra & i & o' & -> & Hf)]; [by left|right]. exists l, o, f, ra, (Fcl i o'), i, o'. split; [done|]. split; [|done].
    unfold bs'. by apply lookup_app_l_Some. }
  cbn [mbind option_bind]. eexists. split; [done|].
  assert (Hrows : exists l0 r0, rows = l0 ++ [r0]).
  { destruct rows as [|r0 l0 _] using rev_ind; [done|]. eauto. }
  destruct Hrows as (l0 & r0 & ->). rewrite last_snoc in EA. cbn in EA.
  destruct (prows_head (length bs) (input, output, w, act) (conj Hw Hd)) as [tl Etl]. unfold prows in Etl. cbn [fst snd] in Etl.
  split; [split|].
  - apply wf_app. split; [apply wf_app; split; [eapply wf_mono; [exact (lay_wf _ _ _ H)|lia]|done]|]. apply wf_complete.
    + rewrite EA. apply list.Forall_forall. intros u Hu. pose proof (elem_rows (l0 ++ [r0]) (length l0) r0 u ltac:(by apply list_lookup_middle) Hu) as E.
      rewrite (lay_nodes _ _ _ H) in E. apply elem_of_seq in E. lia.
    + apply list.Forall_forall. intros b Hb. apply elem_of_seq in Hb. rewrite Lbs. unfold lsize. cbn [fst snd]. lia.
  - unfold new. rewrite Etl, links_app, (lay_links _ _ _ H), <- !app_assoc. apply Permutation_app_head. rewrite Permutation_app_comm. apply Permutation_app_tail.
    cbn [fst snd]. by apply complete_perm.
  - rewrite fmap_app, join_app, (lay_nodes _ _ _ H), Pn, Lbs, seq_app. done.
  - apply Forall_app. split; [exact (lay_ne _ _ _ H)|]. apply (prows_ne (length bs) (input, output, w, act)). done.
  - right. unfold lrows. exists ((l0 ++ [r0]) ++ wrows (length bs) w (input * output)). eexists _, _, _, input, output. split; [by rewrite app_assoc|].
    unfold bs', lbodies. rewrite lookup_app_r by lia. rewrite lookup_app_r by (rewrite wbodies_length; lia). rewrite wbodies_length.
    replace (length bs + w * (input * output) - length bs - w * (input * output)) with 0 by lia. done.
Qed.

(** the arguments of init_aco, layer by layer *)
Definition plan (k : setup F) : list lplan :=
  (fun p : nat * nat * nat * option nat => p) <$> zip (zip (zip (k_sizes k) (tail (k_sizes k))) (k_widths k)) (k_acts k).
Lemma layers_loop junk rnd (k : setup F) ps : Forall lok ps ->
  (forall i p, ps !! i = Some p -> k_sizes k !! i = Some p.1.1.1 /\ k_sizes k !! (i + 1) = Some p.1.1.2 /\ k_widths k !! i = Some p.1.2 /\ k_acts k !! i = Some p.2) ->
  exists ts, for_loop (length ps) 0 (fun i (st : graph F * list (list nat)) =>
         let (g, ls) := st in
         input ← rd (k_sizes k) i; output ← rd (k_sizes k) (i + 1); width ← rd (k_widths k) i; act ← rd (k_acts k) i;
         st ← attach_layer O junk rnd 0 input output width act g;
         let (g, n) := st : graph F * list nat in Some (g, ls ++ [n])) (mk O [Empty] [], []) = Some (mk O (Empty :: bodies_all rnd 1 ps) ts, ids_all 1 ps) /\
    lay (Empty :: bodies_all rnd 1 ps) ts ((0, [0]) :: rows_all 1 ps).
Proof.
  intros Hok Hk.
  set (P := fun i (st : graph F * list (list nat)) => exists ts, st = (mk O (Empty :: bodies_all rnd 1 (take i ps)) ts, ids_all 1 (take i ps)) /\
    lay (Empty :: bodies_all rnd 1 (take i ps)) ts ((0, [0]) :: rows_all 1 (take i ps)) /\
    shaped ((0, [0]) :: rows_all 1 (take i ps)) (Empty :: bodies_all rnd 1 (take i ps))).
  match goal with |- exists ts, for_loop ?c ?i ?b ?s = _ /\ _ => destruct (for_loop_inv P b c i s) as (st & Est & ts & -> & Hlay & _) end.
  - exists []. split; [done|]. split; [|by left]. split; cbn; try done; repeat constructor. done.
  - intros i st Hi (ts & -> & Hlay & Hsh). destruct (lookup_lt_is_Some_2 ps i ltac:(lia)) as [p Ep].
    destruct (Hk i p Ep) as (E1 & E2 & E3 & E4). unfold rd. rewrite E1. cbn [mbind option_bind]. rewrite E2. cbn [mbind option_bind]. rewrite E3. cbn [mbind option_bind].
    rewrite E4. cbn [mbind option_bind].
    assert (Hp : lok p) by (rewrite list.Forall_forall in Hok; apply Hok; by eapply elem_of_list_lookup_2).
    destruct (attach_layer_ok junk rnd _ _ _ p Hlay eq_refl Hsh Hp) as (ts' & -> & Hlay' & Hsh'). cbn [mbind option_bind]. eexists. split; [done|].
    exists ts'. rewrite (take_S_r ps i p) by done. rewrite bodies_all_app, rows_all_app, ids_all_app.
    assert (L : length (Empty :: bodies_all rnd 1 (take i ps)) = 1 + psum (take i ps)) by (cbn [length]; rewrite bodies_all_length; done).
    rewrite L in Hlay', Hsh' |- *. cbn [bodies_all rows_all ids_all]. rewrite !app_nil_r. cbn [app] in *. done.
  - cbn [plus] in *. rewrite take_ge in Hlay by done. exists ts. rewrite Est. rewrite take_ge by done. done.
Qed.
End init.
