(** Footprints of the sums; the trained gradients are among the entries added *)
From Verif Require Import NumLib BaseLemmas RealSum Upd_Model Upd_Spec Net_Model Net_Spec Net_Proofs Net_Clip Net_ClipProps Sum_Model Sum_Spec Sum_Threads Sum_Proofs Sum_Reduce.
Open Scope nat_scope.

(** * Footprints *)
Lemma ok_arrays B a1 a2 a3 nm n : a1 ∈ B -> a2 ∈ B -> a3 ∈ B -> ok B (sum_arrays a1 a2 a3 nm n).
Proof. intros. apply ok_loop. intros i _. cbn. done. Qed.
Ltac oks := repeat first [by apply ok_arrays | apply ok_when | apply ok_seq | apply ok_loop; intros ? _ | apply ok_at; intros ? _].
Lemma ok_fcl B f f2 f3 : f_at f ∈ B -> f_at f2 ∈ B -> f_at f3 ∈ B -> ok B (add_fcl f f2 f3).
Proof. intros. unfold add_fcl. oks. destruct (fl_norm (f_cfg f)); [by apply ok_arrays|done]. Qed.
Lemma ok_cl B f f2 f3 : c_at f ∈ B -> c_at f2 ∈ B -> c_at f3 ∈ B -> ok B (add_cl f f2 f3).
Proof. intros. unfold add_cl. oks. Qed.
Lemma ok_residual B f f2 f3 : c_at f ∈ B -> c_at f2 ∈ B -> c_at f3 ∈ B -> ok B (add_residual f f2 f3).
Proof. intros. unfold add_residual. oks. Qed.
Lemma ok_over3 {X} B (a b c : list X) body : (forall x y z, x ∈ a -> y ∈ b -> z ∈ c -> ok B (body x y z)) -> ok B (over3 a b c body).
Proof. intros H. apply ok_loop. intros i _. apply ok_at. intros x Hx. apply ok_at. intros y Hy. apply ok_at. intros z Hz. apply H; by eapply elem_of_list_lookup_2. Qed.
Lemma ok_model B m m2 m3 : addrs m ⊆ B -> addrs m2 ⊆ B -> addrs m3 ⊆ B -> ok B (add_model m m2 m3).
Proof.
  intros H1 H2 H3. unfold addrs in *.
  assert (Hf : forall m f, map f_at (fcls m) ++ map c_at (cls m) ++ map c_at (concat (rls m)) ⊆ B -> f ∈ fcls m -> f_at f ∈ B).
  { intros x f Hx Hf. apply Hx, elem_of_app. left. apply elem_of_list_fmap. by exists f. }
  assert (Hc : forall m f, map f_at (fcls m) ++ map c_at (cls m) ++ map c_at (concat (rls m)) ⊆ B -> f ∈ cls m -> c_at f ∈ B).
  { intros x f Hx Hc. apply Hx, elem_of_app. right. apply elem_of_app. left. apply elem_of_list_fmap. by exists f. }
  assert (Hr : forall m cs f, map f_at (fcls m) ++ map c_at (cls m) ++ map c_at (concat (rls m)) ⊆ B -> cs ∈ rls m -> f ∈ cs -> c_at f ∈ B).
  { intros x cs f Hx Hcs Hr. apply Hx, elem_of_app. right. apply elem_of_app. right. apply elem_of_list_fmap. exists f. split; [done|]. apply elem_of_list_In, in_concat. exists cs. by split; apply elem_of_list_In. }
  unfold add_model. repeat apply ok_seq; apply ok_over3.
  - intros x y z Hx Hy Hz. apply ok_fcl; [by apply (Hf m)|by apply (Hf m2)|by apply (Hf m3)].
  - intros x y z Hx Hy Hz. apply ok_cl; [by apply (Hc m)|by apply (Hc m2)|by apply (Hc m3)].
  - intros x y z Hx Hy Hz. apply ok_over3. intros x' y' z' Hx' Hy' Hz'. apply ok_residual; [by apply (Hr m x)|by apply (Hr m2 y)|by apply (Hr m3 z)].
Qed.
Lemma addrs_reloc s m : addrs (reloc s m) = map s (addrs m).
Proof. unfold addrs. cbn [reloc fcls cls rls]. rewrite !map_app, !map_map, <- concat_map, map_map. done. Qed.
Lemma ok_reloc m A s1 s2 s3 : addrs m ⊆ A -> ok (map s1 A ++ map s2 A ++ map s3 A) (add_model (reloc s1 m) (reloc s2 m) (reloc s3 m)).
Proof.
  intros HA. apply ok_model; rewrite addrs_reloc; intros x Hx; apply elem_of_list_fmap in Hx as (a & -> & Ha); apply HA in Ha; rewrite !elem_of_app; [left|right; left|right; right]; apply elem_of_list_fmap; by exists a.
Qed.
Lemma all_addrs_sub m ms : m ∈ ms -> addrs m ⊆ all_addrs ms [].
Proof. intros Hm x Hx. unfold all_addrs. apply elem_of_app. left. apply elem_of_list_In, in_concat. exists (addrs m). split; apply elem_of_list_In; [apply elem_of_list_fmap; by exists m|done]. Qed.
Lemma ok_dqn d s1 s2 s3 : let A := all_addrs (dqn_nets d) [] in ok (map s1 A ++ map s2 A ++ map s3 A) (add_dqn (reloc_dqn s1 d) (reloc_dqn s2 d) (reloc_dqn s3 d)).
Proof. intros A. unfold add_dqn, reloc_dqn. cbn [shared_hidden v_hidden v_linear a_hidden a_linear]. do 4 (apply ok_seq; [apply ok_reloc, all_addrs_sub; unfold dqn_nets; set_solver|]). apply ok_reloc, all_addrs_sub. unfold dqn_nets. set_solver. Qed.

(** * Entries *)
Lemma in_concat_map {X Y} (f : X -> list Y) l y : y ∈ concat (map f l) <-> exists x, x ∈ l /\ y ∈ f x.
Proof.
  rewrite elem_of_list_In, in_concat. split.
  - intros (z & Hz & Hy). apply in_map_iff in Hz as (x & <- & Hx). apply elem_of_list_In in Hx, Hy. by exists x.
  - intros (x & Hx & Hy). exists (f x). split; [apply in_map_iff; exists x; split; [done|]|]; by apply elem_of_list_In.
Qed.
Lemma fcl_L_grads f : fcl_L f ⊆ fcl_grads f.
Proof. intros p Hp. unfold fcl_L, fcl_grads in *. apply elem_slots in Hp as (H1 & H2 & H3 & H4). apply elem_slots. apply andb_true_iff in H3 as [_ H3]. done. Qed.
Lemma fcl_slots_L f : fcl_sums f -> fcl_slots f ⊆ fcl_L f.
Proof.
  intros [Hy Hn] [[a nm] i] Hp. unfold fcl_L, fcl_slots in *. apply elem_slots in Hp as (H1 & H2 & H3 & H4). apply elem_slots. cbn [fst snd] in *. split_and!; [done| | |done].
  - unfold fcl_trains in H3. rewrite Hn, Hy, ?andb_false_r in H3. destruct (fl_only_dropout (f_cfg f)); [done|].
    repeat (apply elem_of_cons in H2 as [->|H2]; [rewrite ?andb_false_r in H3; try done; set_solver|]). by apply elem_of_nil in H2.
  - unfold fcl_trains, fcl_has in *. rewrite Hn, Hy in H3. destruct (fl_only_dropout (f_cfg f)); [done|].
    destruct nm as [| | | | |k|[|b]|[|b]| | | | |]; try done; rewrite ?andb_false_r in H3; try done; apply bool_decide_eq_true in H3; destruct (fl_mode (f_cfg f)); bdv; cbn; try done; try naive_solver;
    apply bool_decide_eq_true; by right.
Qed.
Lemma cl_L_grads f : cl_L f ⊆ cl_grads f.
Proof.
  intros [[a nm] i] Hp. unfold cl_L, cl_grads in *. apply elem_slots in Hp as (H1 & H2 & H3 & H4). apply elem_slots. apply andb_true_iff in H3 as [_ H3]. cbn [fst snd] in *. split_and!; try done.
  destruct nm; try done. apply andb_true_iff in H3 as [Hc He]. apply bool_decide_eq_true in He. unfold cl_has. rewrite Hc. cbn. apply bool_decide_eq_true. by right.
Qed.
Lemma res_L_grads f : residual_sums f -> res_L f ⊆ cl_grads f.
Proof.
  intros (_ & _ & Hpos) [[a nm] i] Hp. unfold res_L, cl_grads in *. apply elem_slots in Hp as (H1 & H2 & H3 & H4). apply elem_slots. apply andb_true_iff in H3 as [_ H3]. cbn [fst snd] in *. split_and!; try done.
  destruct nm; try done. cbn. rewrite <- !Nat.mul_assoc. eapply Nat.lt_le_trans; [exact H4|]. rewrite Nat.mul_assoc in *. rewrite <- Nat.mul_assoc in *. nia.
Qed.
Lemma cl_names_in f nm : cl_trains (c_cfg f) nm = true -> cv_group (c_cfg f) = [] -> nm ∈ map Kernel (List.seq 0 (cv_kernels (c_cfg f))) ++ [Biases; Scores].
Proof.
  intros H Hg. unfold cl_trains in H. apply andb_true_iff in H as [_ H]. rewrite elem_of_app. destruct nm; try done.
  - right. set_solver.
  - right. set_solver.
  - left. apply bool_decide_eq_true in H as [H _]. apply elem_of_list_fmap. eexists. split; [done|]. apply elem_of_seq. lia.
  - rewrite Hg in H. unfold group_trains in H. by rewrite lookup_nil, andb_false_r in H.
  - rewrite Hg in H. unfold group_trains in H. by rewrite lookup_nil, andb_false_r in H.
Qed.
Lemma cl_slots_L f : cl_sums f -> cl_slots f ⊆ cl_L f.
Proof.
  intros Hg [[a nm] i] Hp. unfold cl_L, cl_slots in *. apply elem_slots in Hp as (H1 & H2 & H3 & H4). apply elem_slots. cbn [fst snd] in *. split_and!; [done|by apply cl_names_in| |done].
  pose proof (cl_names_in f nm H3 Hg) as Hn. unfold cl_trains, cl_has in *. apply andb_true_iff in H3 as [Hc H3]. rewrite Hc. cbn [andb].
  destruct nm; try done; try (apply bool_decide_eq_true in H3; destruct (cv_mode (c_cfg f)); bdv; naive_solver).
  all: rewrite Hg in H3; unfold group_trains in H3; by rewrite lookup_nil, andb_false_r in H3.
Qed.
Lemma res_slots_L f : residual_sums f -> cl_slots f ⊆ res_L f.
Proof.
  intros (Hg & Hm & _) [[a nm] i] Hp. unfold res_L, cl_slots in *. apply elem_slots in Hp as (H1 & H2 & H3 & H4). apply elem_slots. cbn [fst snd] in *.
  pose proof (cl_names_in f nm H3 Hg) as Hn. unfold cl_trains in H3. apply andb_true_iff in H3 as [Hc H3].
  assert (Hs : nm <> Scores) by (intros ->; by apply bool_decide_eq_true in H3).
  split_and!; [done|done| |by destruct nm]. unfold cl_has in *. rewrite Hc. cbn [andb].
  destruct nm; try done; try (apply bool_decide_eq_true in H3; destruct (cv_mode (c_cfg f)); bdv; naive_solver).
  all: rewrite Hg in H3; unfold group_trains in H3; by rewrite lookup_nil, andb_false_r in H3.
Qed.
Lemma model_L_grads m : summable m -> model_L m ⊆ model_grads m.
Proof.
  intros (_ & _ & Hr) p. rewrite list.Forall_forall in Hr. unfold model_L, model_grads. rewrite !elem_of_app, !in_concat_map. intros [(f & Hf & Hp)|[(f & Hf & Hp)|(cs & Hcs & Hp)]].
  - left. exists f. split; [done|by apply fcl_L_grads].
  - right. left. exists f. split; [done|by apply cl_L_grads].
  - right. right. apply in_concat_map in Hp as (f & Hf & Hp). assert (f ∈ concat (rls m)) by (apply elem_of_list_In, in_concat; exists cs; by split; apply elem_of_list_In).
    exists f. split; [done|]. apply res_L_grads; [by apply Hr|done].
Qed.
Lemma model_slots_L m : summable m -> model_slots m ⊆ model_L m.
Proof.
  intros (Hf & Hc & Hr) p. rewrite list.Forall_forall in Hf. rewrite list.Forall_forall in Hc. rewrite list.Forall_forall in Hr. unfold model_slots, model_L. rewrite !elem_of_app, !in_concat_map.
  intros [(f & Hin & Hp)|[(f & Hin & Hp)|(f & Hin & Hp)]].
  - left. exists f. split; [done|]. by apply fcl_slots_L; [apply Hf|].
  - right. left. exists f. split; [done|]. by apply cl_slots_L; [apply Hc|].
  - right. right. assert (Hr' := Hr f Hin). apply elem_of_list_In, in_concat in Hin as (cs & Hcs & Hfc). exists cs. split; [by apply elem_of_list_In|]. apply in_concat_map. exists f. split; [by apply elem_of_list_In|].
    by apply res_slots_L.
Qed.
Lemma model_L_addrs m p : p ∈ model_L m -> p.1.1 ∈ addrs m.
Proof.
  unfold model_L, addrs. rewrite !elem_of_app, !in_concat_map. intros [(f & Hin & Hp)|[(f & Hin & Hp)|(cs & Hin & Hp)]].
  - left. apply slots_in in Hp as [-> _]. apply elem_of_list_fmap. by exists f.
  - right. left. apply slots_in in Hp as [-> _]. apply elem_of_list_fmap. by exists f.
  - right. right. apply in_concat_map in Hp as (f & Hf & Hp). apply slots_in in Hp as [-> _]. apply elem_of_list_fmap. exists f. split; [done|]. apply elem_of_list_In, in_concat. exists cs. by split; apply elem_of_list_In.
Qed.
Definition sum_blocks (m : model) : list block :=
  map (fun f => (f_at f, fcl_L f)) (fcls m) ++ map (fun f => (c_at f, cl_L f)) (cls m) ++ map (fun f => (c_at f, res_L f)) (concat (rls m)).
Lemma sum_blocks_addrs m : map fst (sum_blocks m) = addrs m.
Proof. unfold sum_blocks, addrs. by rewrite !map_app, !map_map. Qed.
Lemma sum_blocks_L m : concat (map snd (sum_blocks m)) = model_L m.
Proof. unfold sum_blocks, model_L. rewrite !map_app, !concat_app, !map_map. cbn [snd]. do 2 f_equal. by rewrite concat_map, concat_concat_map, map_map. Qed.
Lemma NoDup_cl2 K : NoDup (map Kernel (List.seq 0 K) ++ [Biases; Scores]).
Proof. pose proof (NoDup_cl_names K 0) as H. cbn in H. exact H. Qed.
Lemma sum_blocks_ok m : Forall block_ok (sum_blocks m).
Proof.
  unfold sum_blocks. rewrite !list.Forall_app, !Forall_fmap. split_and!; apply Forall_true; intros f; (split; [|intros p Hp; by apply slots_in in Hp as [? _]]); cbn [compose snd].
  - apply NoDup_slots. apply (bool_decide_unpack _). vm_compute. done.
  - apply NoDup_slots, NoDup_cl2.
  - apply NoDup_slots, NoDup_cl2.
Qed.
Lemma NoDup_models_L ms : NoDup (all_addrs ms []) -> NoDup (concat (map model_L ms)).
Proof.
  unfold all_addrs. cbn. rewrite app_nil_r. intros H. replace (concat (map model_L ms)) with (concat (map snd (concat (map sum_blocks ms)))).
  - apply NoDup_blocks; [|apply Forall_concat, Forall_fmap, Forall_true; intros m; apply sum_blocks_ok]. rewrite concat_map, map_map. erewrite map_ext; [exact H|]. intros m. apply sum_blocks_addrs.
  - rewrite concat_map, concat_concat_map, !map_map. f_equal. apply map_ext. intros m. apply sum_blocks_L.
Qed.
Lemma NoDup_model_L m : NoDup (addrs m) -> NoDup (model_L m).
Proof. intros H. pose proof (NoDup_models_L [m]) as X. unfold all_addrs in X. cbn in X. rewrite !app_nil_r in X. by apply X. Qed.
Lemma NoDup_of_map {X Y} (f : X -> Y) l : NoDup (map f l) -> NoDup l.
Proof. apply NoDup_fmap_1. Qed.

(** LSTM *)
Lemma NoDup_lstm_names f : NoDup (lstm_names f).
Proof.
  unfold lstm_names. apply list.NoDup_app. split_and!; [apply (bool_decide_unpack _); vm_compute; done| |apply NoDup_groups].
  intros nm H1 H2. apply groups_in in H2 as (b & [-> | ->]); apply in_concat_map in H1 as (g & _ & Hg); unfold lstm_gates in Hg; set_solver.
Qed.
Lemma lstm_L_grads f : lstm_L f ⊆ lstm_grads f.
Proof. intros p Hp. apply elem_slots in Hp as (H1 & H2 & H3 & H4). apply elem_slots. apply andb_true_iff in H3 as [_ H3]. done. Qed.
Lemma lstm_slots_L f : lstm_slots f ⊆ lstm_L f.
Proof.
  intros [[a nm] i] Hp. unfold lstm_slots in Hp. apply elem_of_app in Hp as [Hp|Hp]; apply elem_slots in Hp as (H1 & H2 & H3 & H4); apply elem_slots; cbn [fst snd] in *.
  - split_and!; [done|apply elem_of_app; by left| |].
    + unfold lstm_trains, lstm_has in *. destruct nm; try done; apply bool_decide_eq_true in H3 as [_ H3]; rewrite H3; by bdv.
    + unfold lstm_size. by destruct nm.
  - apply andb_true_iff in H3 as [H3 H5]. apply bool_decide_eq_true in H3. split_and!; [done|apply elem_of_app; by right| |].
    + rewrite H3. bdv. unfold lstm_has. by destruct nm.
    + unfold lstm_size. by destruct nm.
Qed.
Lemma NoDup_lstms_L ls : NoDup (map l_at ls) -> NoDup (concat (map lstm_L ls)).
Proof.
  intros H. pose proof (NoDup_blocks (map (fun f => (l_at f, lstm_L f)) ls)) as X. rewrite !map_map in X. cbn [fst snd] in X. apply X; [done|].
  apply Forall_fmap, Forall_true. intros f. split; [apply NoDup_slots, NoDup_lstm_names|]. intros p Hp. by apply slots_in in Hp as [? _].
Qed.
