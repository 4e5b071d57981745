From Verif Require Import Base BaseLemmas Work_Model Work_Spec.
Open Scope nat_scope.

Definition buf (pk : nat) (w : list nat) : list nat := w ++ replicate (pk - length w) 0.

Lemma buf_length pk w : length w <= pk -> length (buf pk w) = pk.
Proof. intros H. unfold buf. rewrite app_length, replicate_length. lia. Qed.
Lemma buf_wr pk w c : length w < pk -> wr (buf pk w) (length w) c = Some (buf pk (w ++ [c])).
Proof.
  intros H. rewrite wr_Some by (rewrite buf_length; lia). f_equal. unfold buf. rewrite app_length. cbn [length].
  replace (pk - length w) with (S (pk - (length w + 1))) by lia. cbn [replicate].
  rewrite insert_app_r_alt by lia. replace (length w - length w) with 0 by lia. cbn. by rewrite <- app_assoc.
Qed.
Lemma buf_wr0 pk w : length w < pk -> wr (buf pk w) (length w) 0 = Some (buf pk w).
Proof.
  intros H. rewrite buf_wr by done. f_equal. unfold buf. rewrite app_length. cbn [length].
  replace (pk - length w) with (S (pk - (length w + 1))) by lia. cbn [replicate]. by rewrite <- app_assoc.
Qed.
Lemma buf_wr_over pk w c : length w = pk -> wr (buf pk w) (length w) c = None.
Proof. intros H. unfold wr. rewrite decide_False; [done|]. rewrite buf_length; lia. Qed.
Lemma cstr_buf pk w : 0 ∉ w -> cstr (buf pk w) = w.
Proof.
  intros H. unfold buf. generalize (pk - length w) as m. intros m. induction w as [|c w IH]; cbn.
  - destruct m; [done|]. by cbn.
  - apply not_elem_of_cons in H as [H1 H2]. rewrite decide_False by (intros ->; done). by rewrite IH.
Qed.
Lemma buf_nil pk : buf pk [] = replicate pk 0.
Proof. unfold buf. cbn. f_equal. lia. Qed.
Lemma buf_last pk w c : rd (buf pk (w ++ [c])) (length (w ++ [c]) - 1) = Some c.
Proof.
  unfold rd, buf. rewrite <- app_assoc. rewrite app_length. cbn [length]. replace (length w + 1 - 1) with (length w) by lia.
  rewrite lookup_app_r by lia. by rewrite Nat.sub_diag.
Qed.

(** *** taking *)
Lemma take_found pk src : forall out temp count r, take_loop pk src out temp count (Some r) = Some (out ++ src, Some r).
Proof. induction src as [|ch src IH]; intros out temp count r; cbn; [by rewrite app_nil_r|]. rewrite IH. by rewrite <- app_assoc. Qed.
Lemma take_chars pk src w' : forall w out, NL ∉ w' -> length w + length w' <= pk ->
  take_loop pk (w' ++ src) out (buf pk w) (length w) None = take_loop pk src (out ++ w') (buf pk (w ++ w')) (length (w ++ w')) None.
Proof.
  induction w' as [|c w' IH]; intros w out Hn Hl; cbn [app].
  - by rewrite !app_nil_r.
  - apply not_elem_of_cons in Hn as [H1 H2]. cbn [length] in Hl. cbn [take_loop]. rewrite decide_False by (intros ->; done).
    rewrite buf_wr by lia. cbn [mbind option_bind]. replace (S (length w)) with (length (w ++ [c])) by (rewrite app_length; cbn; lia).
    rewrite IH by (try done; rewrite app_length; cbn; lia). by rewrite <- !app_assoc.
Qed.
Lemma take_over pk src w' : forall w out, NL ∉ w' -> length w <= pk -> pk < length w + length w' ->
  take_loop pk (w' ++ src) out (buf pk w) (length w) None = None.
Proof.
  induction w' as [|c w' IH]; intros w out Hn Hw Hl; cbn [app length] in *; [lia|].
  apply not_elem_of_cons in Hn as [H1 H2]. cbn [take_loop]. rewrite decide_False by (intros ->; done).
  destruct (decide (length w = pk)); [by rewrite buf_wr_over|].
  rewrite buf_wr by lia. cbn [mbind option_bind]. replace (S (length w)) with (length (w ++ [c])) by (rewrite app_length; cbn; lia).
  apply IH; [done| |]; rewrite app_length; cbn; lia.
Qed.

Lemma take_chars0 pk src w' out : NL ∉ w' -> length w' <= pk ->
  take_loop pk (w' ++ src) out (replicate pk 0) 0 None = take_loop pk src (out ++ w') (buf pk w') (length w') None.
Proof. intros H1 H2. rewrite <- buf_nil. exact (take_chars pk src w' [] out H1 H2). Qed.
Lemma take_over0 pk src w' out : NL ∉ w' -> pk < length w' -> take_loop pk (w' ++ src) out (replicate pk 0) 0 None = None.
Proof. intros H1 H2. rewrite <- buf_nil. exact (take_over pk src w' [] out H1 (Nat.le_0_l pk) H2). Qed.

Lemma snoc_cases (n : list nat) : n <> [] -> exists n' c, n = n' ++ [c].
Proof. intros H. destruct n as [|x n'] using rev_ind; [done|]. eauto. Qed.

Lemma take_busy_line pk n src out : NL ∉ n -> length n < pk ->
  take_loop pk (line (n, true) ++ src) out (replicate pk 0) 0 None = take_loop pk src (out ++ line (n, true)) (replicate pk 0) 0 None.
Proof.
  intros H1 H2. unfold line. cbn [fst snd]. replace ((n ++ [SEMI] ++ [NL]) ++ src) with ((n ++ [SEMI]) ++ NL :: src) by (by rewrite <- !app_assoc).
  rewrite take_chars0.
  - cbn [app take_loop]. rewrite decide_True by done. rewrite decide_False by (rewrite app_length; cbn; lia). rewrite buf_last. cbn [mbind option_bind].
    rewrite decide_True by done. by rewrite <- !app_assoc.
  - rewrite elem_of_app. intros [?|Hs]; [done|]. apply elem_of_list_singleton in Hs. discriminate.
  - rewrite app_length. cbn. lia.
Qed.
Lemma take_free_line pk n src out : good_name n -> length n < pk ->
  take_loop pk (line (n, false) ++ src) out (replicate pk 0) 0 None = Some (out ++ line (n, true) ++ src, Some n).
Proof.
  intros (H0 & H1 & H2 & H3) Hl. unfold line. cbn [fst snd app]. replace ((n ++ [NL]) ++ src) with (n ++ NL :: src) by (by rewrite <- !app_assoc).
  rewrite take_chars0; [|done|lia].
  cbn [app take_loop]. rewrite decide_True by done. destruct (snoc_cases n H0) as (n' & c & ->). rewrite decide_False by (rewrite app_length; cbn; lia).
  rewrite buf_last. cbn [mbind option_bind]. rewrite decide_False by (intros ->; apply H2, elem_of_app; right; by apply elem_of_list_singleton).
  rewrite buf_wr0 by done. cbn [mbind option_bind]. rewrite take_found, cstr_buf by done. by rewrite <- !app_assoc.
Qed.

Lemma take_enc pk l tail : Forall (fits pk) l -> NL ∉ tail -> length tail <= pk -> forall out,
  take_loop pk (enc l ++ tail) out (replicate pk 0) 0 None = Some (out ++ enc (fst (take_first l)) ++ tail, snd (take_first l)).
Proof.
  intros Hl Ht1 Ht2. induction Hl as [|[n b] l [Hn Hf] Hl IH]; intros out.
  - change (enc []) with (@nil nat). cbn [take_first fst snd app]. replace tail with (tail ++ []) at 1 by apply app_nil_r.
    rewrite take_chars0 by done. done.
  - change (enc ((n, b) :: l)) with (line (n, b) ++ enc l). rewrite <- app_assoc. cbn [fst] in *. destruct b.
    + cbn [take_first fst snd]. rewrite take_busy_line by (try done; apply Hn). rewrite IH. change (enc ((n, true) :: (take_first l).1)) with (line (n, true) ++ enc (take_first l).1).
      by rewrite <- !app_assoc.
    + cbn [take_first fst snd]. rewrite take_free_line by done. change (enc ((n, true) :: l)) with (line (n, true) ++ enc l). by rewrite <- !app_assoc.
Qed.

(** *** giving back *)
Lemma free_chars x src w' : forall w out, NL ∉ w' -> SEMI ∉ w' -> length w + length w' <= 1024 ->
  free_loop x (w' ++ src) out (buf 1024 w) (length w) = free_loop x src (out ++ w') (buf 1024 (w ++ w')) (length (w ++ w')).
Proof.
  induction w' as [|c w' IH]; intros w out Hn Hs Hl; cbn [app].
  - by rewrite !app_nil_r.
  - apply not_elem_of_cons in Hn as [H1 H2]. apply not_elem_of_cons in Hs as [H3 H4]. cbn [length] in Hl. cbn [free_loop]. rewrite decide_True by done.
    rewrite buf_wr by lia. cbn [mbind option_bind]. replace (S (length w)) with (length (w ++ [c])) by (rewrite app_length; cbn; lia).
    rewrite IH by (try done; rewrite app_length; cbn; lia). by rewrite <- !app_assoc.
Qed.
Lemma free_over x src w' : forall w out, NL ∉ w' -> SEMI ∉ w' -> length w <= 1024 -> 1024 < length w + length w' ->
  free_loop x (w' ++ src) out (buf 1024 w) (length w) = None.
Proof.
  induction w' as [|c w' IH]; intros w out Hn Hs Hw Hl; cbn [app length] in *; [lia|].
  apply not_elem_of_cons in Hn as [H1 H2]. apply not_elem_of_cons in Hs as [H3 H4]. cbn [free_loop]. rewrite decide_True by done.
  destruct (decide (length w = 1024)); [by rewrite buf_wr_over|].
  rewrite buf_wr by lia. cbn [mbind option_bind]. replace (S (length w)) with (length (w ++ [c])) by (rewrite app_length; cbn; lia).
  apply IH; [done|done| |]; rewrite app_length; cbn; lia.
Qed.
Lemma free_chars0 x src w' out : NL ∉ w' -> SEMI ∉ w' -> length w' <= 1024 ->
  free_loop x (w' ++ src) out (replicate 1024 0) 0 = free_loop x src (out ++ w') (buf 1024 w') (length w').
Proof. intros H1 H2 H3. rewrite <- (buf_nil 1024). exact (free_chars x src w' [] out H1 H2 H3). Qed.
Lemma free_over0 x src w' out : NL ∉ w' -> SEMI ∉ w' -> 1024 < length w' -> free_loop x (w' ++ src) out (replicate 1024 0) 0 = None.
Proof. intros H1 H2 H3. rewrite <- (buf_nil 1024). exact (free_over x src w' [] out H1 H2 (Nat.le_0_l _) H3). Qed.
Lemma free_line x n b src out : NL ∉ n -> SEMI ∉ n -> 0 ∉ n -> length n < 1024 ->
  free_loop x (line (n, b) ++ src) out (replicate 1024 0) 0 =
  free_loop x src (out ++ line (n, if decide (n = x) then false else b)) (replicate 1024 0) 0.
Proof.
  intros H1 H2 H3 H4. unfold line. cbn [fst snd]. rewrite <- !app_assoc. rewrite free_chars0 by (try done; lia). destruct b.
  - cbn [app free_loop]. rewrite decide_False by (intros [_ ?]; done). rewrite decide_True by done. rewrite buf_wr0 by done. cbn [mbind option_bind].
    rewrite cstr_buf by done. rewrite decide_False by (intros [? _]; done). rewrite decide_False by done. f_equal.
    rewrite <- !app_assoc. destruct (decide (n = x)); done.
  - cbn [app free_loop]. rewrite decide_False by (intros [? _]; done). rewrite decide_False by done. f_equal.
    rewrite <- !app_assoc. destruct (decide (n = x)); done.
Qed.
Lemma free_enc x l : Forall (fits 1024) l -> set_files_free x (enc l) = Some (enc (free_name x l)).
Proof.
  intros Hl. unfold set_files_free. enough (H : forall out, free_loop x (enc l) out (replicate 1024 0) 0 = Some (out ++ enc (free_name x l))) by apply H.
  induction Hl as [|[n b] l [(_ & H1 & H2 & H3) Hf] Hl IH]; intros out.
  - cbn. by rewrite app_nil_r.
  - change (enc ((n, b) :: l)) with (line (n, b) ++ enc l). cbn [fst] in *. rewrite free_line by done. rewrite IH.
    change (enc (free_name x ((n, b) :: l))) with (line (n, if decide (n = x) then false else b) ++ enc (free_name x l)). by rewrite <- app_assoc.
Qed.

(** *** reset *)
Lemma filter_nosemi (n : list nat) : SEMI ∉ n -> filter (fun c => c <> SEMI) n = n.
Proof. intros H. induction n as [|c n IH]; [done|]. apply not_elem_of_cons in H as [H1 H2]. rewrite filter_cons_True by (intros ->; done). by rewrite IH. Qed.
Lemma reset_enc l : Forall (fun e => SEMI ∉ fst e) l -> remove_occupied (enc l) = enc (free_all l).
Proof.
  unfold remove_occupied. intros Hl. induction Hl as [|[n b] l Hn Hl IH]; [done|]. change (enc ((n, b) :: l)) with (line (n, b) ++ enc l).
  change (enc (free_all ((n, b) :: l))) with (line (n, false) ++ enc (free_all l)). rewrite list.filter_app, IH. f_equal. unfold line. cbn [fst snd] in *.
  rewrite !list.filter_app. rewrite filter_nosemi by done. by destruct b.
Qed.

(** *** histories *)
Definition st (H names : list (list nat)) : list entry := (fun n => (n, bool_decide (n ∈ H))) <$> names.
Lemma st_ext H H' names : (forall n, n ∈ names -> (n ∈ H <-> n ∈ H')) -> st H names = st H' names.
Proof.
  intros HE. unfold st. apply list_fmap_ext. intros i n Hn. f_equal. apply bool_decide_ext, HE. by eapply elem_of_list_lookup_2.
Qed.
Lemma take_first_st H names : NoDup names ->
  (take_first (st H names) = (st H names, None) /\ forall n, n ∈ names -> n ∈ H) \/
  exists n, n ∈ names /\ n ∉ H /\ take_first (st H names) = (st (n :: H) names, Some n).
Proof.
  induction 1 as [|m names Hm Hnd IH].
  - left. split; [done|]. intros n Hn. by apply elem_of_nil in Hn.
  - change (st H (m :: names)) with ((m, bool_decide (m ∈ H)) :: st H names). destruct (decide (m ∈ H)) as [Hin|Hin].
    + rewrite bool_decide_true by done. cbn [take_first]. destruct IH as [[E HA]|(n & Hn & HnH & E)]; rewrite E; cbn [fst snd].
      * left. split; [done|]. intros n [->|Hn]%elem_of_cons; [done|by apply HA].
      * right. exists n. split; [by apply elem_of_cons; right|]. split; [done|]. f_equal.
        change (st (n :: H) (m :: names)) with ((m, bool_decide (m ∈ n :: H)) :: st (n :: H) names). rewrite bool_decide_true by (by apply elem_of_cons; right). done.
    + rewrite bool_decide_false by done. cbn [take_first]. right. exists m. split; [apply elem_of_cons; by left|]. split; [done|]. f_equal.
      change (st (m :: H) (m :: names)) with ((m, bool_decide (m ∈ m :: H)) :: st (m :: H) names). rewrite bool_decide_true by (apply elem_of_cons; by left). f_equal.
      apply st_ext. intros n Hn. rewrite elem_of_cons. split; [tauto|]. intros [->|?]; done.
Qed.
Lemma free_name_st x H names : free_name x (st H names) = st (filter (fun n => n <> x) H) names.
Proof.
  unfold free_name, st. rewrite <- list_fmap_compose. apply list_fmap_ext. intros i n Hn. cbn. f_equal. case_decide as Hx.
  - subst. symmetry. apply bool_decide_eq_false. rewrite elem_of_list_filter. tauto.
  - apply bool_decide_ext. rewrite elem_of_list_filter. tauto.
Qed.
Lemma free_all_st H names : free_all (st H names) = st [] names.
Proof. unfold free_all, st. rewrite <- list_fmap_compose. apply list_fmap_ext. intros i n Hn. cbn. f_equal. Qed.
Lemma st_fits size H names : Forall (fun n => good_name n /\ length n < size) names -> Forall (fits size) (st H names).
Proof. intros HF. unfold st. apply Forall_fmap. eapply list.Forall_impl; [done|]. intros n Hn. exact Hn. Qed.

Section hist.
  Context (names : list (list nat)) (pk : nat).
  Hypothesis Hnd : NoDup names.
  Hypothesis Hgood : Forall (fun n => good_name n /\ length n < pk /\ length n < 1024) names.

  Lemma Hgood_pk : Forall (fun n => good_name n /\ length n < pk) names.
  Proof using Hgood. eapply list.Forall_impl; [done|]. cbn. tauto. Qed.
  Lemma Hgood_1024 : Forall (fun n => good_name n /\ length n < 1024) names.
  Proof using Hgood. eapply list.Forall_impl; [done|]. cbn. tauto. Qed.
  Lemma read_st H : read_files pk (enc (st H names)) = Some (enc (fst (take_first (st H names))), snd (take_first (st H names))).
  Proof using Hgood.
    unfold read_files. pose proof (take_enc pk (st H names) [] (st_fits _ H _ Hgood_pk) ltac:(apply not_elem_of_nil) ltac:(cbn; lia) []) as E.
    rewrite !app_nil_r in E. exact E.
  Qed.
  Lemma reset_st H : remove_occupied (enc (st H names)) = enc (st [] names).
  Proof using Hgood.
    rewrite reset_enc, free_all_st; [done|]. unfold st. apply Forall_fmap. eapply list.Forall_impl; [exact Hgood|]. intros n Hn. cbn. apply Hn.
  Qed.

  Lemma hist_inv file held : hist names pk file held -> file = enc (st held names) /\ NoDup held /\ (forall n, n ∈ held -> n ∈ names).
  Proof using Hnd Hgood.
    induction 1 as [|file held file' r Hh (-> & Hd & Hs) E|file held x file' Hh (-> & Hd & Hs) E|file held Hh (-> & Hd & Hs)].
    - split; [|split; [constructor|intros n Hn; by apply elem_of_nil in Hn]]. f_equal.
    - rewrite read_st in E. destruct (take_first_st held names Hnd) as [[E1 HA]|(n & Hn & HnH & E1)]; rewrite E1 in E; cbn in E; simplify_eq.
      + done.
      + split; [done|]. split; [by apply list.NoDup_cons|]. intros m [->|Hm]%elem_of_cons; [done|by apply Hs].
    - rewrite free_enc in E by (apply st_fits, Hgood_1024). injection E as <-. rewrite free_name_st. split; [done|]. split; [by apply list.NoDup_filter|].
      intros n Hn. apply elem_of_list_filter in Hn as [_ Hn]. by apply Hs.
    - rewrite reset_st. split; [done|]. split; [constructor|]. intros n Hn. by apply elem_of_nil in Hn.
  Qed.
End hist.

(** *** crashes: prefixes of the written file *)
Lemma enc_prefix pk l : Forall (fits pk) l -> forall k, exists l1 tail, (exists l2, l = l1 ++ l2) /\ take k (enc l) = enc l1 ++ tail /\ NL ∉ tail /\ length tail <= pk.
Proof.
  intros Hl. induction Hl as [|[n b] l [Hn Hf] Hl IH]; intros k.
  - exists [], []. split; [by exists []|]. change (enc []) with (@nil nat). rewrite take_nil. split; [done|]. split; [apply not_elem_of_nil|cbn; lia].
  - change (enc ((n, b) :: l)) with (line (n, b) ++ enc l). cbn [fst] in *. destruct (decide (k < length (line (n, b)))) as [Hk|Hk].
    + exists [], (take k (line (n, b))). split; [by exists ((n, b) :: l)|]. split; [rewrite take_app_le by lia; done|].
      assert (HL : line (n, b) = (n ++ (if b then [SEMI] else [])) ++ [NL]) by (unfold line; cbn; by rewrite <- app_assoc).
      rewrite HL in Hk |- *. rewrite app_length in Hk. cbn in Hk. rewrite take_app_le by lia. split.
      * intros Hin. assert (Hin2 : NL ∈ n ++ (if b then [SEMI] else [])). { rewrite <- (take_drop k (n ++ _)). apply elem_of_app. by left. }
        apply elem_of_app in Hin2 as [Hin2|Hin2]; [by apply Hn in Hin2|]. destruct b; [apply elem_of_list_singleton in Hin2; discriminate|by apply elem_of_nil in Hin2].
      * rewrite take_length, app_length. destruct b; cbn; lia.
    + destruct (IH (k - length (line (n, b)))) as (l1 & tail & (l2 & ->) & E & Ht). exists ((n, b) :: l1), tail. split; [by exists l2|]. split; [|done].
      rewrite take_app_ge by lia. rewrite E. change (enc ((n, b) :: l1)) with (line (n, b) ++ enc l1). by rewrite <- app_assoc.
Qed.
Lemma take_first_free l n : snd (take_first l) = Some n -> (n, false) ∈ l.
Proof.
  induction l as [|[m []] l IH]; cbn; intros H; [done| |].
  - apply elem_of_cons. right. by apply IH.
  - injection H as ->. apply elem_of_cons. by left.
Qed.
