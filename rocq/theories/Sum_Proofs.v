(** Gradient sums: which entries each function adds, and in which order *)
From Verif Require Import NumLib BaseLemmas RealSum Upd_Model Upd_Spec Net_Model Net_Spec Net_Proofs Net_Clip Sum_Model Sum_Spec Sum_Threads.
Open Scope nat_scope.

Section accs.
Context (s1 s2 s3 : nat -> nat) (sz : nat -> name -> nat).
Definition op (p : slot) (h : heap) : heap := hset h (s3 p.1.1) p.1.2 (<[p.2 := (get h (mv s1 p) + get h (mv s2 p))%R]> (h (s3 p.1.1) p.1.2)).
Fixpoint acc_all (L : list slot) (h : heap) : heap := match L with [] => h | p :: L => acc_all L (op p h) end.
Definition fits3 (L : list slot) : Prop := forall p, p ∈ L -> p.2 < sz (s1 p.1.1) p.1.2 /\ p.2 < sz (s2 p.1.1) p.1.2 /\ p.2 < sz (s3 p.1.1) p.1.2.
Definition Accs (pr : prog) (L : list slot) : Prop := fits3 L -> forall h, shaped sz h -> run pr h = Some (acc_all L h).
Lemma op_shaped p h : shaped sz h -> shaped sz (op p h).
Proof. intros H a nm. unfold op, hset. case_decide as E; [destruct E as [-> ->]; rewrite insert_length|]; apply H. Qed.
Lemma acc_shaped L h : shaped sz h -> shaped sz (acc_all L h).
Proof. revert h. induction L as [|p L IH]; intros h H; cbn; [done|]. apply IH. by apply op_shaped. Qed.
Lemma acc_app L1 L2 h : acc_all (L1 ++ L2) h = acc_all L2 (acc_all L1 h).
Proof. revert h. induction L1 as [|p L IH]; intros h; cbn; [done|]. apply IH. Qed.
Lemma fits3_app L1 L2 : fits3 (L1 ++ L2) -> fits3 L1 /\ fits3 L2.
Proof. intros H. split; intros p Hp; apply H, elem_of_app; auto. Qed.
Lemma Accs_done : Accs Done [].
Proof. by intros _ h _. Qed.
Lemma Accs_seq p q L1 L2 : Accs p L1 -> Accs q L2 -> Accs (seq p q) (L1 ++ L2).
Proof.
  intros H1 H2 HL h Hh. apply fits3_app in HL as [F1 F2]. rewrite run_seq, (H1 F1 h Hh). cbn. rewrite (H2 F2) by by apply acc_shaped. by rewrite acc_app.
Qed.
Lemma Accs_when b p L : Accs p L -> Accs (when b p) (if b then L else []).
Proof. destruct b; [done|]. intros _. apply Accs_done. Qed.
Lemma Accs_loop n i0 body L : (forall i, i0 <= i < i0 + n -> Accs (body i) (L i)) -> Accs (loop n i0 body) (concat (map L (List.seq i0 n))).
Proof. revert i0. induction n as [|n IH]; intros i0 H; cbn; [apply Accs_done|]. apply Accs_seq; [apply H; lia|]. apply IH. intros. apply H. lia. Qed.
Lemma Accs_arrays a nm n : Accs (sum_arrays (s1 a) (s2 a) (s3 a) nm n) (arr a nm n).
Proof.
  unfold sum_arrays, arr. rewrite <- (concat_map_single (fun i => (a, nm, i)) (List.seq 0 n)). apply Accs_loop. intros i _ HL h Hh.
  destruct (HL (a, nm, i)) as (F1 & F2 & F3); [by apply elem_of_list_singleton|]. cbn [fst snd] in *.
  cbn [run acc_all]. unfold put, op. cbn [fst snd]. unfold mv. cbn [fst snd].
  rewrite (rd_el _ i) by (rewrite Hh; done). cbn [mbind option_bind]. rewrite (rd_el _ i) by (rewrite Hh; done). cbn [mbind option_bind].
  rewrite wr_Some by (rewrite Hh; done). done.
Qed.
Definition each {A} (l : list A) (f : A -> prog) : prog := fold_right (fun x p => seq (f x) p) Done l.
Lemma Accs_each {A} (l : list A) f L : (forall x, x ∈ l -> Accs (f x) (L x)) -> Accs (each l f) (concat (map L l)).
Proof.
  induction l as [|x l IH]; intros H; cbn; [apply Accs_done|]. apply Accs_seq; [apply H; by left|]. apply IH. intros y Hy. apply H. by right.
Qed.

Lemma get_op p h q : get (op p h) q = if decide (q = mv s3 p) then (if decide (q.2 < length (h q.1.1 q.1.2)) then (get h (mv s1 p) + get h (mv s2 p))%R else 0%R) else get h q.
Proof.
  destruct (decide (q = mv s3 p)) as [->|Hne].
  - destruct p as [[a nm] i]. unfold mv, get, op, hset. cbn [fst snd]. rewrite decide_True by done. destruct (decide _) as [Hl|Hl].
    + apply el_lookup. by rewrite list_lookup_insert.
    + rewrite list_insert_ge by lia. apply el_ge. lia.
  - destruct p as [[a nm] i], q as [[a' nm'] i']. unfold mv, get, op, hset in *. cbn [fst snd] in *. destruct (decide (a' = s3 a /\ nm' = nm)) as [[-> ->]|]; [|done].
    assert (i <> i') by (intros ->; done). unfold el. rewrite !nth_lookup. by rewrite list_lookup_insert_ne.
Qed.
Lemma get_acc_other L h q : q ∉ map (mv s3) L -> get (acc_all L h) q = get h q.
Proof.
  revert h. induction L as [|p L IH]; intros h Hq; cbn [acc_all]; [done|]. cbn [map] in Hq. apply not_elem_of_cons in Hq as [Hq1 Hq2]. rewrite IH by done. rewrite get_op. by rewrite decide_False.
Qed.
Lemma get_acc L h : shaped sz h -> NoDup L -> fits3 L ->
  (forall p p', p ∈ L -> p' ∈ L -> p <> p' -> mv s1 p' <> mv s3 p /\ mv s2 p' <> mv s3 p /\ mv s3 p' <> mv s3 p) ->
  forall p, p ∈ L -> get (acc_all L h) (mv s3 p) = (get h (mv s1 p) + get h (mv s2 p))%R.
Proof.
  revert h. induction L as [|q L IH]; intros h Hh Hn HL Hs p Hp; [by apply elem_of_nil in Hp|]. cbn [acc_all]. apply list.NoDup_cons in Hn as [Hq Hn].
  apply elem_of_cons in Hp as [->|Hp].
  - rewrite get_acc_other.
    + rewrite get_op, decide_True by done. rewrite decide_True; [done|]. unfold mv. cbn [fst snd]. rewrite Hh. apply HL. by left.
    + intros Hx. apply elem_of_list_fmap in Hx as (p & E & Hp). destruct (Hs p q) as (_ & _ & X); [by right|by left|intros ->; done|]. done.
  - rewrite IH; [|by apply op_shaped|done|intros x Hx; apply HL; by right|intros x y Hx Hy; apply Hs; by right|done].
    destruct (Hs q p) as (X1 & X2 & _); [by left|by right|intros ->; done|]. rewrite !get_op. by rewrite !decide_False.
Qed.
Lemma acc_only L A h : (forall p, p ∈ L -> p.1.1 ∈ A) -> only (map s3 A) h (acc_all L h).
Proof.
  intros HA a nm Ha. revert h. induction L as [|p L IH]; intros h; cbn; [done|]. rewrite IH by (intros; apply HA; by right). unfold op, hset. rewrite decide_False; [done|].
  intros [-> _]. apply Ha. apply elem_of_list_fmap. eexists. split; [done|]. apply HA. by left.
Qed.
End accs.

(** * Loops over arrays of layers *)
Lemma loop_ext n i0 f g : (forall i, i0 <= i < i0 + n -> f i = g i) -> loop n i0 f = loop n i0 g.
Proof. revert i0. induction n as [|n IH]; intros i0 H; cbn; [done|]. rewrite H by lia. f_equal. apply IH. intros. apply H. lia. Qed.
Lemma loop_shift n i0 f : loop n (S i0) f = loop n i0 (fun i => f (S i)).
Proof. revert i0. induction n as [|n IH]; intros i0; cbn; [done|]. by rewrite IH. Qed.
Lemma loop_at {A} (l : list A) f : loop (length l) 0 (fun i => at_ l i f) = each l f.
Proof. induction l as [|x l IH]; cbn; [done|]. f_equal. rewrite loop_shift. exact IH. Qed.
Lemma over3_each {A B} (l : list A) (r1 r2 r3 : A -> B) body : over3 (map r1 l) (map r2 l) (map r3 l) body = each l (fun x => body (r1 x) (r2 x) (r3 x)).
Proof.
  unfold over3. rewrite map_length. induction l as [|x l IH]; cbn; [done|]. f_equal. rewrite loop_shift. exact IH.
Qed.

(** * The entries added by each function *)
Definition fcl_L (f : fnode) : list slot :=
  slots (f_at f) [Weights; Biases; Scores] (fun nm => bool_decide (fl_mode (f_cfg f) <> FREEZE_TRAINING) && fcl_has f nm) (fcl_sizes (f_cfg f)).
Definition cl_L (f : cnode) : list slot :=
  slots (c_at f) (map Kernel (List.seq 0 (cv_kernels (c_cfg f))) ++ [Biases; Scores])
    (fun nm => bool_decide (cv_mode (c_cfg f) <> FREEZE_TRAINING) && match nm with Scores => cv_conv (c_cfg f) && bool_decide (cv_mode (c_cfg f) = EDGE_POPUP) | _ => cl_has f nm end)
    (cl_sizes (c_cfg f)).
Definition res_L (f : cnode) : list slot :=
  slots (c_at f) (map Kernel (List.seq 0 (cv_kernels (c_cfg f))) ++ [Biases; Scores])
    (fun nm => bool_decide (cv_mode (c_cfg f) <> FREEZE_TRAINING) && cl_has f nm)
    (fun nm => match nm with Scores => cv_kernels (c_cfg f) | _ => cl_sizes (c_cfg f) nm end).
Definition lstm_has (f : lnode) (nm : name) : bool :=
  match nm with W _ | U _ | LBiases _ => bool_decide (ls_mode (l_cfg f) = GRADIENT_DESCENT)
              | WScores _ | UScores _ => bool_decide (ls_mode (l_cfg f) = EDGE_POPUP) | _ => true end.
Definition lstm_size (f : lnode) (nm : name) : nat := match nm with Gamma b | Beta b => group_dim (l_bns f) b | _ => lstm_sizes (l_cfg f) nm end.
Definition lstm_names (f : lnode) : list name := concat (map lstm_gates (List.seq 0 4)) ++ groups (length (l_bns f)).
Definition lstm_L (f : lnode) : list slot :=
  slots (l_at f) (lstm_names f) (fun nm => bool_decide (ls_mode (l_cfg f) <> FREEZE_TRAINING) && lstm_has f nm) (lstm_size f).
Definition model_L (m : model) : list slot := concat (map fcl_L (fcls m)) ++ concat (map cl_L (cls m)) ++ concat (map (fun cs => concat (map res_L cs)) (rls m)).

Ltac bdv := repeat match goal with |- context [bool_decide ?P] =>
  let b := eval vm_compute in (bool_decide P) in
  match b with true => change (bool_decide P) with true | false => change (bool_decide P) with false end end.
Section layers.
Context (s1 s2 s3 : nat -> nat) (sz : nat -> name -> nat).
Notation Accs := (Accs s1 s2 s3 sz).
Lemma Accs_eq p L L' : Accs p L' -> L = L' -> Accs p L.
Proof. by intros ? ->. Qed.
Lemma Accs_fcl f : fl_norm (f_cfg f) = None -> Accs (add_fcl (reloc_f s1 f) (reloc_f s2 f) (reloc_f s3 f)) (fcl_L f).
Proof.
  intros Hn. unfold add_fcl. cbn [reloc_f f_cfg f_at f_edge]. rewrite Hn.
  eapply Accs_eq; [apply Accs_when, Accs_seq; [apply Accs_when, Accs_seq; apply Accs_arrays|apply Accs_seq; [apply Accs_when, Accs_arrays|apply Accs_done]]|].
  unfold fcl_L, slots, fcl_has. cbn [map concat fcl_sizes]. rewrite (Nat.mul_comm (fl_in (f_cfg f))), !app_nil_r.
  destruct (fl_mode (f_cfg f)), (fl_only_dropout (f_cfg f)), (f_edge f); bdv; cbn; rewrite ?app_nil_r, <- ?app_assoc; done.
Qed.
Lemma Accs_kernels f n : Accs (loop (cv_kernels (c_cfg f)) 0 (fun k => sum_arrays (s1 (c_at f)) (s2 (c_at f)) (s3 (c_at f)) (Kernel k) n))
  (concat (map (fun k => arr (c_at f) (Kernel k) n) (List.seq 0 (cv_kernels (c_cfg f))))).
Proof. apply Accs_loop. intros k _. apply Accs_arrays. Qed.
Lemma Accs_cl f : cv_group (c_cfg f) = [] -> Accs (add_cl (reloc_c s1 f) (reloc_c s2 f) (reloc_c s3 f)) (cl_L f).
Proof.
  intros Hg. unfold add_cl. cbn [reloc_c c_cfg c_at c_edge]. rewrite Hg.
  eapply Accs_eq; [apply Accs_when, Accs_seq; [apply Accs_when, Accs_seq; [apply Accs_kernels|apply Accs_seq; [apply Accs_arrays|apply Accs_done]]|apply Accs_when, Accs_arrays]|].
  unfold cl_L. rewrite slots_app, slots_map. unfold slots, cl_has. cbn [map concat cl_sizes].
  destruct (cv_mode (c_cfg f)), (cv_conv (c_cfg f)), (c_edge f); bdv; cbn [andb]; rewrite ?app_nil_r, <- ?app_assoc; try done; rewrite ?concat_map_nil by done; done.
Qed.
Lemma Accs_res f : cv_group (c_cfg f) = [] -> Accs (add_residual (reloc_c s1 f) (reloc_c s2 f) (reloc_c s3 f)) (res_L f).
Proof.
  intros Hg. unfold add_residual. cbn [reloc_c c_cfg c_at c_edge]. rewrite Hg. cbn [length loop].
  eapply Accs_eq; [apply Accs_when, Accs_when, Accs_seq; [apply Accs_when, Accs_kernels|apply Accs_seq; [apply Accs_when, Accs_arrays|apply Accs_seq; [apply Accs_when, Accs_arrays|apply Accs_done]]]|].
  unfold res_L. rewrite slots_app, slots_map. unfold slots, cl_has. cbn [map concat cl_sizes].
  destruct (cv_mode (c_cfg f)), (cv_conv (c_cfg f)), (c_edge f); bdv; cbn [andb orb]; rewrite ?app_nil_r, <- ?app_assoc; try done; rewrite ?concat_map_nil by done; done.
Qed.
Lemma Accs_lstm f : Accs (add_lstm (reloc_l s1 f) (reloc_l s2 f) (reloc_l s3 f)) (lstm_L f).
Proof.
  unfold add_lstm. cbn [reloc_l l_cfg l_at l_bns]. unfold lstm_L, lstm_names.
  eapply Accs_eq; [apply Accs_when, Accs_seq|].
  - apply Accs_loop with (L := fun j => slots (l_at f) (lstm_gates j) (lstm_has f) (lstm_size f)). intros j _. unfold slots, lstm_gates. cbn [map concat lstm_has lstm_size lstm_sizes].
    destruct (ls_mode (l_cfg f)); bdv; dm; rewrite ?app_nil_r; cbn [app when]; try apply Accs_done; repeat apply Accs_seq; apply Accs_arrays.
  - apply Accs_loop with (L := fun k => arr (l_at f) (Gamma k) (group_dim (l_bns f) k) ++ arr (l_at f) (Beta k) (group_dim (l_bns f) k)). intros k Hk. unfold at_, group_dim.
    destruct (lookup_lt_is_Some_2 (l_bns f) k) as [b E]; [lia|]. rewrite E. apply Accs_seq; apply Accs_arrays.
  - destruct (bool_decide (ls_mode (l_cfg f) <> FREEZE_TRAINING)); cbn [andb].
    + rewrite slots_app, slots_groups. unfold slots at 1. rewrite concat_map, concat_concat_map, !map_map. f_equal.
    + by rewrite slots_none.
Qed.
Lemma Accs_model m : Forall (fun f => fl_norm (f_cfg f) = None) (fcls m) -> Forall cl_sums (cls m) -> Forall cl_sums (concat (rls m)) ->
  Accs (add_model (reloc s1 m) (reloc s2 m) (reloc s3 m)) (model_L m).
Proof.
  intros Hf Hc Hr. rewrite list.Forall_forall in Hf. rewrite list.Forall_forall in Hc. rewrite list.Forall_forall in Hr.
  unfold add_model, model_L. cbn [reloc fcls cls rls]. rewrite !over3_each. repeat apply Accs_seq; apply Accs_each.
  - intros f H. by apply Accs_fcl, Hf.
  - intros f H. by apply Accs_cl, Hc.
  - intros cs H. rewrite over3_each. apply Accs_each. intros f H'. apply Accs_res, Hr. apply elem_of_list_In, in_concat. exists cs. by split; apply elem_of_list_In.
Qed.
Lemma Accs_rmodel ls : Accs (add_rmodel (reloc_r s1 ls) (reloc_r s2 ls) (reloc_r s3 ls)) (concat (map lstm_L ls)).
Proof. unfold add_rmodel, reloc_r. rewrite over3_each. apply Accs_each. intros f _. apply Accs_lstm. Qed.
End layers.
