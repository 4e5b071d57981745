From Verif Require Import NumLib NumLib2 Upd_Model Upd_Spec Upd_Proofs.
Open Scope nat_scope.

Ltac ind0 := rewrite ?ind_no by (intros [? _]; simplify_eq; lia).
Lemma nsum_pick n k0 c : nsum n (fun k => if decide (k = k0) then c else 0) = if decide (k0 < n) then c else 0.
Proof. induction n as [|n IH]; cbn [nsum]; [by rewrite decide_False by lia|]. rewrite IH. repeat destruct decide; lia. Qed.

Ltac z0 := intros; repeat (apply nsum_0; intros); repeat destruct decide; try done; repeat rewrite ind_no by (intros [? _]; simplify_eq); try done.

Section layers.
Context {St : Type} (step : nat -> R -> R -> St -> R * St) (mn : name -> nat) (t : name -> bool) (sz : name -> nat).
Notation Steps := (Steps step mn t sz).

Lemma Steps_cl m bm c : (forall nm, t nm = cl_trains c nm) -> (forall nm, sz nm = cl_sizes c nm) -> (forall nm, mn nm = minis m bm nm) ->
  Steps (update_cl step m bm c) (fun nm _ => cl_steps (cv_kernels c) c nm).
Proof.
  intros Ht Hsz Hmn. unfold update_cl.
  destruct (decide (cv_mode c <> FREEZE_TRAINING)) as [F|F].
  2:{ eapply Steps_ext; [apply Steps_id|]. intros nm i Hi. unfold cl_steps, cl_trains. destruct (cv_conv c); [|done].
      assert (cv_mode c = FREEZE_TRAINING) as E by (destruct (cv_mode c); try done; exfalso; by apply F). rewrite E.
      destruct nm; try done; rewrite bool_decide_false by (intros ?; intuition discriminate); done. }
  destruct (cv_conv c) eqn:CV.
  2:{ eapply Steps_ext; [apply Steps_id|]. intros nm i Hi. unfold cl_steps, cl_trains. by rewrite CV. }
  destruct (decide (cv_mode c = GRADIENT_DESCENT \/ cv_mode c = FREEZE_BIASES)) as [C|C].
  - eapply Steps_ext.
    + apply Steps_loop with (c := fun k nm i =>
        nsum (cv_channels c) (fun u => nsum (cv_rows c) (fun z => nsum (cv_cols c) (fun w => ind (nm = Kernel k /\ i = u * cv_rows c * cv_cols c + z * cv_cols c + w))))
        + ((if decide (cv_mode c <> FREEZE_BIASES) then ind (nm = Biases /\ i = k) else 0)
           + match nm with Gamma b | Beta b => ind (i < group_dim (cv_group c) b /\ group_trains (cv_group c) b = true) | _ => 0 end)).
      intros k Hk. apply Steps_seq.
      { apply Steps_loop with (c := fun u nm i => nsum (cv_rows c) (fun z => nsum (cv_cols c) (fun w => ind (nm = Kernel k /\ i = u * cv_rows c * cv_cols c + z * cv_cols c + w)))). intros u Hu.
        apply Steps_loop with (c := fun z nm i => nsum (cv_cols c) (fun w => ind (nm = Kernel k /\ i = u * cv_rows c * cv_cols c + z * cv_cols c + w))). intros z Hz.
        apply Steps_loop with (c := fun w nm i => ind (nm = Kernel k /\ i = u * cv_rows c * cv_cols c + z * cv_cols c + w)). intros w Hw.
        apply Steps_upd; [rewrite Ht; unfold cl_trains; rewrite CV; by rewrite bool_decide_true| |by rewrite Hmn]. rewrite Hsz. cbn [cl_sizes].
        assert (z * cv_cols c + w < cv_rows c * cv_cols c) by nia. rewrite <- !Nat.mul_assoc. nia. }
      apply Steps_seq.
      { apply Steps_case; intros C1; [|apply Steps_id]. apply Steps_upd; [|by rewrite Hsz|by rewrite Hmn]. rewrite Ht. unfold cl_trains. rewrite CV. rewrite bool_decide_true; [done|]. by destruct C. }
      apply Steps_bns; [intros; by rewrite !Hmn|]. intros b Hb. rewrite !Hsz, !Ht. unfold cl_trains. rewrite CV, bool_decide_true, Hb by done. done.
    + intros nm i Hi. rewrite Hsz, Ht in Hi. unfold cl_steps, cl_trains in *. rewrite CV in *. cbn [andb] in *. rewrite !nsum_plus.
      destruct nm; cbn [cl_sizes] in Hi;
        match goal with
        | |- context [Kernel ?k = _] => idtac
        | _ => rewrite (nsum_0 _ (fun k => nsum (cv_channels c) _)) by z0
        end;
        match goal with
        | |- context [Biases = Biases] => idtac
        | _ => rewrite (nsum_0 _ (fun k => if decide _ then _ else 0)) by (intros; destruct (decide (cv_mode c <> FREEZE_BIASES)); [by ind0|done])
        end; rewrite nsum_const; rewrite ?Nat.mul_0_r, ?Nat.add_0_r; cbn [Nat.add]; try done.
      * (* Scores *) rewrite bool_decide_false; [done|]. intros E. rewrite E in C. destruct C; done.
      * (* Biases *) destruct (decide (cv_mode c = GRADIENT_DESCENT)) as [G|G].
        -- rewrite bool_decide_true in * by done. transitivity (ind (i < cv_kernels c)); [|apply ind_yes; by apply Hi]. rewrite <- nsum_ind.
           apply nsum_ext; intros. rewrite decide_True by (rewrite G; done). apply ind_iff. tauto.
        -- rewrite bool_decide_false by done. destruct C as [C|C]; [done|]. apply nsum_0; intros. by rewrite decide_False by (rewrite C; intros X; by apply X).
      * (* Kernel *) destruct (decide (k < cv_kernels c)) as [K|K].
        -- rewrite bool_decide_true in * by tauto. rewrite (nsum_ext _ _ (fun k' => if decide (k' = k) then 1 else 0)).
           2:{ intros k' Hk'. destruct (decide (k' = k)) as [->|N].
            - transitivity (ind (i < cv_channels c * cv_rows c * cv_cols c)); [|apply ind_yes; by apply Hi]. rewrite <- nsum_flat3.
              apply nsum_ext; intros; apply nsum_ext; intros; apply nsum_ext; intros. apply ind_iff. tauto.
            - apply nsum_0; intros; apply nsum_0; intros; apply nsum_0; intros. apply ind_no. intros [? _]. congruence. }
           rewrite nsum_pick. by rewrite decide_True by done.
        -- rewrite bool_decide_false by tauto. apply nsum_0; intros; apply nsum_0; intros; apply nsum_0; intros; apply nsum_0; intros. apply ind_no. intros [E _]. injection E as E. lia.
      * (* Gamma *) rewrite bool_decide_true in * by done. cbn [andb] in *. destruct (group_trains (cv_group c) b); [rewrite ind_yes by (split; [by apply Hi|done]); lia|rewrite ind_no by (intros [_ ?]; done); lia].
      * rewrite bool_decide_true in * by done. cbn [andb] in *. destruct (group_trains (cv_group c) b); [rewrite ind_yes by (split; [by apply Hi|done]); lia|rewrite ind_no by (intros [_ ?]; done); lia].
  - destruct (decide (cv_mode c = EDGE_POPUP)) as [E|E].
    + eapply Steps_ext.
      * apply Steps_loop with (c := fun k nm i => ind (nm = Scores /\ i = k)). intros k Hk. apply Steps_upd; [|by rewrite Hsz|by rewrite Hmn].
        rewrite Ht. unfold cl_trains. rewrite CV. by rewrite bool_decide_true.
      * intros nm i Hi. rewrite Hsz, Ht in Hi. unfold cl_steps, cl_trains in *. rewrite CV in *. cbn [andb] in *. destruct nm; cbn [cl_sizes] in Hi;
          try (rewrite nsum_0 by (intros; by ind0); first [done|rewrite bool_decide_false by tauto; done]).
        rewrite bool_decide_true in * by done. transitivity (ind (i < cv_kernels c * cv_channels c * cv_rows c * cv_cols c)); [|apply ind_yes; by apply Hi]. rewrite <- nsum_ind.
        apply nsum_ext; intros. apply ind_iff. tauto.
    + eapply Steps_ext; [apply Steps_id|]. intros nm i Hi. unfold cl_steps, cl_trains. rewrite CV. destruct nm; try done; rewrite bool_decide_false; try done; tauto.
Qed.

Lemma Steps_lstm m l : (forall nm, t nm = lstm_trains l nm) -> (forall nm, sz nm = lstm_sizes l nm) -> (forall nm, mn nm = m) ->
  Steps (update_lstm step m l) (fun nm _ => if lstm_trains l nm then 1 else 0).
Proof.
  intros Ht Hsz Hmn. unfold update_lstm. eapply Steps_ext.
  - apply Steps_loop with (c := fun j nm i =>
      nsum (ls_out l * ls_in l) (fun k => if decide (ls_mode l = GRADIENT_DESCENT) then ind (nm = W j /\ i = k) else if decide (ls_mode l = EDGE_POPUP) then ind (nm = WScores j /\ i = k) else 0)
      + nsum (ls_out l * ls_out l) (fun k => if decide (ls_mode l = GRADIENT_DESCENT) then ind (nm = U j /\ i = k) + (if decide (k < ls_out l /\ ls_mode l <> FREEZE_BIASES) then ind (nm = LBiases j /\ i = k) else 0)
                                             else if decide (ls_mode l = EDGE_POPUP) then ind (nm = UScores j /\ i = k) else 0)).
    intros j Hj. apply Steps_seq.
    + apply Steps_loop with (c := fun k nm i => if decide (ls_mode l = GRADIENT_DESCENT) then ind (nm = W j /\ i = k) else if decide (ls_mode l = EDGE_POPUP) then ind (nm = WScores j /\ i = k) else 0).
      intros k Hk. apply Steps_case; intros C1; [|apply Steps_case; intros C2; [|apply Steps_id]]; (apply Steps_upd; [rewrite Ht; cbn [lstm_trains]; by rewrite bool_decide_true|by rewrite Hsz|by rewrite Hmn]).
    + apply Steps_loop with (c := fun k nm i => if decide (ls_mode l = GRADIENT_DESCENT) then ind (nm = U j /\ i = k) + (if decide (k < ls_out l /\ ls_mode l <> FREEZE_BIASES) then ind (nm = LBiases j /\ i = k) else 0)
                                             else if decide (ls_mode l = EDGE_POPUP) then ind (nm = UScores j /\ i = k) else 0).
      intros k Hk. apply Steps_case; intros C1; [apply Steps_seq|apply Steps_case; intros C2; [|apply Steps_id]].
      * apply Steps_upd; [rewrite Ht; cbn [lstm_trains]; by rewrite bool_decide_true|by rewrite Hsz|by rewrite Hmn].
      * apply Steps_case; intros C2; [|apply Steps_id]. apply Steps_upd; [rewrite Ht; cbn [lstm_trains]; by rewrite bool_decide_true|rewrite Hsz; apply C2|by rewrite Hmn].
      * apply Steps_upd; [rewrite Ht; cbn [lstm_trains]; by rewrite bool_decide_true|by rewrite Hsz|by rewrite Hmn].
  - intros nm i Hi. rewrite Hsz, Ht in Hi. cbv beta. rewrite nsum_plus.
    assert (forall (F : nat -> name) a j0 (P : Prop) `{Decision P} (q : nat -> nat -> nat), (forall j j', F j = F j' -> j = j') -> nm = F j0 -> (bool_decide (j0 < 4 /\ P) = true -> i < a) ->
       (P -> forall j, j < 4 -> forall k, k < a -> q j k = ind (nm = F j /\ i = k)) -> (~ P -> forall j, j < 4 -> forall k, k < a -> q j k = 0) ->
       nsum 4 (fun j => nsum a (q j)) = if bool_decide (j0 < 4 /\ P) then 1 else 0) as CNT.
    { intros F a j0 P HP q IF Enm La HP1 HP0. destruct (decide P) as [p|p].
      - rewrite (nsum_ext 4 _ (fun j => if decide (j = j0) then (if bool_decide (j0 < 4 /\ P) then 1 else 0) else 0)).
        + rewrite nsum_pick. destruct (decide (j0 < 4)); [done|]. rewrite bool_decide_false by tauto. done.
        + intros j Hj. rewrite (nsum_ext a _ (fun k => ind (nm = F j /\ i = k))) by (intros; by apply HP1). destruct (decide (j = j0)) as [->|N].
          * rewrite bool_decide_true in * by tauto. transitivity (ind (i < a)); [|apply ind_yes; by apply La]. rewrite <- nsum_ind. apply nsum_ext; intros. apply ind_iff. tauto.
          * apply nsum_0; intros. apply ind_no. intros [X _]. apply N, IF. congruence.
      - rewrite bool_decide_false by tauto. apply nsum_0; intros; apply nsum_0; intros. by apply HP0. }
    assert (forall n0 (q : nat -> nat -> nat), (forall j k, q j k = 0) -> nsum 4 (fun j => nsum n0 (q j)) = 0) as Z0.
    { intros n0 q Hq. apply nsum_0; intros; apply nsum_0; intros. apply Hq. }
    destruct nm; cbn [lstm_sizes lstm_trains] in *;
      try (rewrite !Z0; [done| |]; intros; repeat destruct decide; try done; repeat rewrite ind_no by (intros [? _]; done); done).
    + rewrite (Z0 (ls_out l * ls_out l)) by (intros; repeat destruct decide; try done; repeat rewrite ind_no by (intros [? _]; done); done). rewrite Nat.add_0_r.
      apply (CNT W); try done; intros; [congruence|by rewrite decide_True by done|]. rewrite decide_False by done. destruct decide; [|done]. by ind0.
    + rewrite (Z0 (ls_out l * ls_in l)) by (intros; repeat destruct decide; try done; repeat rewrite ind_no by (intros [? _]; done); done). cbn [Nat.add].
      apply (CNT U); try done; intros; [congruence|rewrite decide_True by done|].
      * rewrite (ind_no (U j = LBiases _ /\ _)) by (intros [? _]; done). destruct decide; lia.
      * rewrite decide_False by done. destruct decide; [|done]. by ind0.
    + rewrite (Z0 (ls_out l * ls_in l)) by (intros; repeat destruct decide; try done; repeat rewrite ind_no by (intros [? _]; done); done). cbn [Nat.add].
      apply (CNT LBiases); try done; intros; [congruence| |rewrite decide_True by done|].
      * assert (i < ls_out l) by auto. nia.
      * rewrite (ind_no (LBiases j = U _ /\ _)) by (intros [? _]; done). cbn [Nat.add].
        destruct decide as [D|D]; [done|]. symmetry. apply ind_no. intros [E Ek]. apply D. injection E as <-. subst. rewrite bool_decide_true in Hi by done. split; [by apply Hi|]. congruence.
      * rewrite decide_False by done. destruct decide; [|done]. by ind0.
    + rewrite (Z0 (ls_out l * ls_out l)) by (intros; repeat destruct decide; try done; repeat rewrite ind_no by (intros [? _]; done); done). rewrite Nat.add_0_r.
      apply (CNT WScores); try done; intros P; intros; [congruence|rewrite P; rewrite decide_False, decide_True by done; done|]. destruct decide; [by ind0|]. by rewrite decide_False by done.
    + rewrite (Z0 (ls_out l * ls_in l)) by (intros; repeat destruct decide; try done; repeat rewrite ind_no by (intros [? _]; done); done). cbn [Nat.add].
      apply (CNT UScores); try done; intros P; intros; [congruence|rewrite P; rewrite decide_False, decide_True by done; done|].
      destruct decide; [ind0; by destruct decide|]. by rewrite decide_False by done.
Qed.
End layers.
