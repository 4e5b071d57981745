(** Proofs about the readers of data files. *)
From Verif Require Import Parse_Model Parse_Spec BaseLemmas.
Open Scope nat_scope.

Lemma run_app {S} (step : S -> ascii -> option S) f1 f2 s : run step (f1 ++ f2) s = s ← run step f1 s; run step f2 s.
Proof. revert s. induction f1 as [|c f1 IH]; intros s; [done|]. cbn. destruct (step s c); [|done]. cbn. apply IH. Qed.
Lemma c_string_clean l : NUL ∉ l -> c_string l = l.
Proof.
  induction l as [|c l IH]; intros H; [done|]. cbn. rewrite decide_False; [f_equal; apply IH; intros ?; apply H; by apply elem_of_list_further|].
  intros ->. apply H, elem_of_list_here.
Qed.

Lemma mjoin_app {A} (l1 l2 : list (list A)) : mjoin (l1 ++ l2) = mjoin l1 ++ mjoin l2.
Proof. induction l1 as [|a l1 IH]; [done|]. change (a ++ mjoin (l1 ++ l2) = (a ++ mjoin l1) ++ mjoin l2). rewrite IH. by rewrite app_assoc. Qed.

Section readers.
Context {F : Type} (atof : list ascii -> F).
Implicit Types io : list F * list F.

Lemma filled_step (v old : list F) i x : v !! i = Some x -> i < length old -> wr (filled (take i v) old) i x = Some (filled (take (S i) v) old).
Proof.
  intros Hx Hi. assert (Hl : length (take i v) = i) by (apply take_length_le; apply lookup_lt_Some in Hx; lia).
  assert (Hl' : length (take (S i) v) = S i) by (apply take_length_le; apply lookup_lt_Some in Hx; lia).
  unfold filled. rewrite Hl, Hl'. rewrite wr_Some by (rewrite app_length, drop_length; lia). f_equal.
  rewrite (take_S_r v i x) by done. rewrite insert_app_r_alt by lia. rewrite Hl, Nat.sub_diag. rewrite <- app_assoc. f_equal.
  destruct (lookup_lt_is_Some_2 old i Hi) as [y Hy]. rewrite (drop_S old y i) by done. done.
Qed.
Lemma store_split n (row : list F) j x io : fits n row io -> row !! j = Some x -> store n (split_row n (take j row) io) j x = Some (split_row n (take (S j) row) io).
Proof.
  intros [H1 H2] Hx. assert (Hj : j < length row) by (by eapply lookup_lt_Some). rewrite take_length in H1. rewrite drop_length in H2.
  unfold store, split_row. cbn [fst snd]. case_decide as Hn.
  - rewrite !take_take. replace (n `min` j) with j by lia. replace (n `min` S j) with (S j) by lia.
    rewrite (filled_step row io.1 j x) by (done || lia). cbn [mbind option_bind]. rewrite !drop_ge by (rewrite take_length; lia). done.
  - rewrite !take_take. replace (n `min` j) with n by lia. replace (n `min` S j) with n by lia.
    assert (Hd : forall k, n <= k -> drop n (take k row) = take (k - n) (drop n row)) by (intros k Hk; rewrite take_drop_commute; by replace (n + (k - n)) with k by lia).
    rewrite !Hd by lia. rewrite (filled_step (drop n row) io.2 (j - n) x); [|rewrite lookup_drop; by replace (n + (j - n)) with j by lia|lia].
    cbn [mbind option_bind]. by replace (S j - n) with (S (j - n)) by lia.
Qed.
Lemma split_row_nil n io : split_row n [] io = io.
Proof. unfold split_row, filled. rewrite take_nil, drop_nil. cbn. by destruct io. Qed.

(** * CSV *)
Lemma put_run n f tok j io : semi ∉ f -> length tok + length f <= 256 -> run (csv_step atof n) f (tok, j, io) = Some (tok ++ f, j, io).
Proof.
  revert tok. induction f as [|c f IH]; intros tok Hs Hl; [cbn; by rewrite app_nil_r|]. cbn [run csv_step]. cbn in Hl.
  rewrite decide_True by (intros ->; apply Hs, elem_of_list_here). unfold put. rewrite decide_True by lia. cbn [mbind option_bind].
  rewrite IH; [by rewrite <- app_assoc|intros ?; apply Hs; by apply elem_of_list_further|rewrite app_length; cbn; lia].
Qed.
Lemma put_overflow n f tok j io : semi ∉ f -> length tok <= 256 -> 256 < length tok + length f -> run (csv_step atof n) f (tok, j, io) = None.
Proof.
  revert tok. induction f as [|c f IH]; intros tok Hs Hl Hl2; [cbn in Hl2; lia|]. cbn [run csv_step]. cbn in Hl2.
  rewrite decide_True by (intros ->; apply Hs, elem_of_list_here). unfold put. case_decide; [|done]. cbn [mbind option_bind].
  apply IH; [intros ?; apply Hs; by apply elem_of_list_further|rewrite app_length; cbn; lia|rewrite app_length; cbn; lia].
Qed.
Lemma field_run n f j io io' : length f <= 255 -> semi ∉ f -> store n io j (atof (c_string f)) = Some io' ->
  run (csv_step atof n) (f ++ [semi]) ([], j, io) = Some ([], S j, io').
Proof.
  intros Hl Hs Hst. rewrite run_app, put_run by (cbn; try done; lia). cbn [mbind option_bind app run csv_step]. rewrite decide_False by (by intros ?).
  unfold number. rewrite decide_True by lia. cbn [mbind option_bind]. rewrite Hst. done.
Qed.
Lemma line_run n (fs : list (list ascii)) io k : Forall cell fs -> fits n fs io -> k <= length fs ->
  run (csv_step atof n) (line (take k fs)) ([], 0, io) = Some ([], k, split_row n (take k (atof <$> fs)) io).
Proof.
  intros Hf Hfit. induction k as [|k IH]; intros Hk; [cbn; by rewrite split_row_nil|].
  destruct (lookup_lt_is_Some_2 fs k Hk) as [f Hfk]. rewrite (take_S_r fs k f) by done. unfold line. rewrite fmap_app, mjoin_app. rewrite run_app.
  change (mjoin ((λ f0, f0 ++ [semi]) <$> take k fs)) with (line (take k fs)). rewrite IH by lia. cbn [mbind option_bind fmap list_fmap mjoin list_join]. rewrite app_nil_r.
  assert (Hlf : cell f) by (by eapply (proj1 (Forall_lookup _ _) Hf)). destruct Hlf as (Hl & Hs & Hn). apply field_run; [done|done|]. rewrite c_string_clean by done.
  apply store_split; [|by rewrite list_lookup_fmap, Hfk]. destruct Hfit as [Hf1 Hf2]. split; [rewrite <- fmap_take|rewrite <- fmap_drop]; by rewrite fmap_length.
Qed.

(** * CSV with a row per line *)
Lemma rows_put n f tok j i ios : semi ∉ f -> newline ∉ f -> length tok + length f <= 256 -> run (csv_rows_step atof n) f (tok, j, i, ios) = Some (tok ++ f, j, i, ios).
Proof.
  revert tok. induction f as [|c f IH]; intros tok Hs Hn Hl; [cbn; by rewrite app_nil_r|]. cbn [run csv_rows_step]. cbn in Hl.
  rewrite decide_True by (split; intros ->; [apply Hs, elem_of_list_here|apply Hn, elem_of_list_here]). unfold put. rewrite decide_True by lia. cbn [mbind option_bind].
  rewrite IH; [by rewrite <- app_assoc|intros ?; apply Hs; by apply elem_of_list_further|intros ?; apply Hn; by apply elem_of_list_further|rewrite app_length; cbn; lia].
Qed.
Lemma rows_field n f j i io io' ios : field f -> ios !! i = Some io -> store n io j (atof f) = Some io' ->
  run (csv_rows_step atof n) (f ++ [semi]) ([], j, i, ios) = Some ([], S j, i, <[i := io']> ios).
Proof.
  intros (Hl & Hs & Hn & H0) Hi Hst. rewrite run_app, rows_put by (cbn; try done; lia). cbn [mbind option_bind app run csv_rows_step].
  rewrite decide_False by (by intros [? _]). rewrite decide_True by done. unfold number. rewrite decide_True by lia. cbn [mbind option_bind]. rewrite c_string_clean by done.
  unfold rd. rewrite Hi. cbn [mbind option_bind]. rewrite Hst. cbn [mbind option_bind]. rewrite wr_Some by (by eapply lookup_lt_Some). done.
Qed.
Lemma rows_line n (fs : list (list ascii)) i io ios k : Forall field fs -> ios !! i = Some io -> fits n fs io -> k <= length fs ->
  run (csv_rows_step atof n) (line (take k fs)) ([], 0, i, ios) = Some ([], k, i, <[i := split_row n (take k (atof <$> fs)) io]> ios).
Proof.
  intros Hf Hi Hfit. induction k as [|k IH]; intros Hk; [cbn; by rewrite split_row_nil, list_insert_id|].
  destruct (lookup_lt_is_Some_2 fs k Hk) as [f Hfk]. rewrite (take_S_r fs k f) by done. unfold line. rewrite fmap_app, mjoin_app. rewrite run_app.
  change (mjoin ((λ f0, f0 ++ [semi]) <$> take k fs)) with (line (take k fs)). rewrite IH by lia. cbn [mbind option_bind fmap list_fmap mjoin list_join]. rewrite app_nil_r.
  assert (Hlf : field f) by (by eapply (proj1 (Forall_lookup _ _) Hf)).
  erewrite rows_field; [|done|apply list_lookup_insert; by eapply lookup_lt_Some|].
  2: { apply store_split; [|by rewrite list_lookup_fmap, Hfk]. destruct Hfit as [Hf1 Hf2]. split; [rewrite <- fmap_take|rewrite <- fmap_drop]; by rewrite fmap_length. }
  by rewrite list_insert_insert.
Qed.
Lemma rows_table n (rows : list (list (list ascii))) (ios1 ios2 ios3 : list (list F * list F)) : Forall (Forall field) rows -> Forall2 (fits n) rows ios2 ->
  run (csv_rows_step atof n) (table rows) ([], 0, length ios1, ios1 ++ ios2 ++ ios3)
    = Some ([], 0, length ios1 + length rows, ios1 ++ zip_with (fun row io => split_row n (atof <$> row) io) rows ios2 ++ ios3).
Proof.
  intros Hf Hfit. revert ios1. induction Hfit as [|row io rows ios2 H1 H2 IH]; intros ios1; [cbn; by rewrite Nat.add_0_r|].
  apply list.Forall_cons in Hf as [Hf1 Hf]. unfold table. rewrite fmap_cons. cbn [mjoin list_join]. rewrite !run_app.
  change (mjoin ((λ r, line r ++ [newline]) <$> rows)) with (table rows).
  pose proof (rows_line n row (length ios1) io (ios1 ++ (io :: ios2) ++ ios3) (length row) Hf1) as HL.
  rewrite take_ge in HL by done. rewrite HL; [|cbn [app]; by rewrite list_lookup_middle|done|done]. cbn [mbind option_bind run csv_rows_step].
  rewrite decide_False by (by intros [_ ?]). rewrite decide_False by tauto. cbn [mbind option_bind].
  rewrite (take_ge (atof <$> row)) by (by rewrite fmap_length).
  specialize (IH Hf (ios1 ++ [split_row n (atof <$> row) io])). rewrite app_length in IH. cbn [length] in IH.
  replace (S (length ios1)) with (length ios1 + 1) by lia. cbn [app]. rewrite insert_app_r_alt by lia. rewrite Nat.sub_diag. cbn [insert list_insert].
  rewrite <- app_assoc in IH. cbn [app] in IH. rewrite IH. cbn [length zip_with]. rewrite <- !app_assoc. cbn [app]. do 3 f_equal. lia.
Qed.

(** * Characters *)
Lemma chars_run n (cs : list ascii) io k : fits n cs io -> k <= length cs ->
  run (char_step atof n) (take k cs) (0, io) = Some (k, split_row n (take k ((fun c => atof (c_string [c])) <$> cs)) io).
Proof.
  intros Hfit. induction k as [|k IH]; intros Hk; [cbn; by rewrite split_row_nil|].
  destruct (lookup_lt_is_Some_2 cs k Hk) as [c Hc]. rewrite (take_S_r cs k c) by done. rewrite run_app, IH by lia. cbn [mbind option_bind run]. unfold char_step. cbn [fst snd].
  rewrite (store_split n ((fun c => atof (c_string [c])) <$> cs)); [done| |by rewrite list_lookup_fmap, Hc].
  destruct Hfit as [Hf1 Hf2]. split; [rewrite <- fmap_take|rewrite <- fmap_drop]; by rewrite fmap_length.
Qed.
Lemma char_line n (cs : list ascii) i io ios k : newline ∉ cs -> ios !! i = Some io -> fits n cs io -> k <= length cs ->
  run (char_rows_step atof n) (take k cs) (0, i, ios) = Some (k, i, <[i := split_row n (take k ((fun c => atof (c_string [c])) <$> cs)) io]> ios).
Proof.
  intros Hn Hi Hfit. induction k as [|k IH]; intros Hk; [cbn; by rewrite split_row_nil, list_insert_id|].
  destruct (lookup_lt_is_Some_2 cs k Hk) as [c Hc]. rewrite (take_S_r cs k c) by done. rewrite run_app, IH by lia. cbn [mbind option_bind run char_rows_step].
  rewrite decide_True by (intros ->; apply Hn; by eapply elem_of_list_lookup_2). unfold rd. rewrite list_lookup_insert by (by eapply lookup_lt_Some). cbn [mbind option_bind].
  rewrite (store_split n ((fun c => atof (c_string [c])) <$> cs)); [| |by rewrite list_lookup_fmap, Hc].
  - cbn [mbind option_bind]. rewrite wr_Some by (rewrite insert_length; by eapply lookup_lt_Some). cbn [mbind option_bind]. by rewrite list_insert_insert.
  - destruct Hfit as [Hf1 Hf2]. split; [rewrite <- fmap_take|rewrite <- fmap_drop]; by rewrite fmap_length.
Qed.
Lemma char_table_run n (rows : list (list ascii)) (ios1 ios2 ios3 : list (list F * list F)) : Forall (fun r => newline ∉ r) rows -> Forall2 (fits n) rows ios2 ->
  run (char_rows_step atof n) (char_table rows) (0, length ios1, ios1 ++ ios2 ++ ios3)
    = Some (0, length ios1 + length rows, ios1 ++ zip_with (fun row io => split_row n ((fun c => atof (c_string [c])) <$> row) io) rows ios2 ++ ios3).
Proof.
  intros Hf Hfit. revert ios1. induction Hfit as [|row io rows ios2 H1 H2 IH]; intros ios1; [cbn; by rewrite Nat.add_0_r|].
  apply list.Forall_cons in Hf as [Hf1 Hf]. unfold char_table. rewrite fmap_cons. cbn [mjoin list_join]. rewrite !run_app.
  change (mjoin ((λ r, r ++ [newline]) <$> rows)) with (char_table rows).
  pose proof (char_line n row (length ios1) io (ios1 ++ (io :: ios2) ++ ios3) (length row) Hf1) as HL.
  rewrite take_ge in HL by done. rewrite HL; [|cbn [app]; by rewrite list_lookup_middle|done|done]. cbn [mbind option_bind run char_rows_step].
  rewrite decide_False by tauto. cbn [mbind option_bind]. rewrite (take_ge (_ <$> row)) by (by rewrite fmap_length).
  specialize (IH Hf (ios1 ++ [split_row n ((fun c => atof (c_string [c])) <$> row) io])). rewrite app_length in IH. cbn [length] in IH.
  replace (S (length ios1)) with (length ios1 + 1) by lia. cbn [app]. rewrite insert_app_r_alt by lia. rewrite Nat.sub_diag. cbn [insert list_insert].
  rewrite <- app_assoc in IH. cbn [app] in IH. rewrite IH. cbn [length zip_with]. rewrite <- !app_assoc. cbn [app]. do 3 f_equal. lia.
Qed.

(** * Whole files *)
Lemma tail_notin seps c tail : tail_of seps tail -> c ∈ seps -> c ∉ tail.
Proof. intros [_ H] Hc Ht. rewrite list.Forall_forall in H. by eapply H. Qed.
Lemma single_csv_read n text (row : list (list ascii)) io : row_text text row -> fits n row io -> single_csv atof (Some text) n io = Some (0, split_row n (atof <$> row) io).
Proof.
  intros (Hc & tail & Ht & ->) Hf. unfold single_csv. rewrite run_app. pose proof (line_run n row io (length row) Hc Hf (Nat.le_refl _)) as H.
  rewrite take_ge in H by done. rewrite H. cbn [mbind option_bind]. rewrite put_run; [|eapply tail_notin; [done|set_solver]|cbn; apply Ht].
  cbn. by rewrite take_ge by (by rewrite fmap_length).
Qed.
Lemma rows_csv_read n text (rows : list (list (list ascii))) ios1 ios2 : table_text text rows -> Forall2 (fits n) rows ios1 ->
  rows_csv atof (Some text) n (ios1 ++ ios2) = Some (0, read_rows n ((fun r : list (list ascii) => atof <$> r) <$> rows) ios1 ++ ios2).
Proof.
  intros (Hc & tail & Ht & Hor) Hf. unfold rows_csv, read_rows. rewrite zip_with_fmap_l.
  assert (Hs : semi ∉ tail) by (eapply tail_notin; [done|set_solver]). assert (Hn : newline ∉ tail) by (eapply tail_notin; [done|set_solver]). destruct Ht as [Htl _].
  destruct Hor as [->|(rows0 & last & -> & ->)].
  - rewrite run_app. pose proof (rows_table n rows [] ios1 ios2 Hc Hf) as H0; cbn [app length] in H0; rewrite H0. cbn [mbind option_bind]. rewrite rows_put by (done || (cbn; lia)). done.
  - apply list.Forall_app in Hc as [Hc0 Hc1]. apply list.Forall_cons in Hc1 as [Hc1 _].
    apply Forall2_app_inv_l in Hf as (io0 & io1 & Hf0 & Hf1 & ->). apply Forall2_cons_inv_l in Hf1 as (io & io1' & Hf1 & Hnil & ->). apply Forall2_nil_inv_l in Hnil as ->.
    rewrite run_app. rewrite <- app_assoc. pose proof (rows_table n rows0 [] io0 ([io] ++ ios2) Hc0 Hf0) as H0; cbn [length] in H0; cbn [app] in H0 |- *; rewrite H0. cbn [mbind option_bind]. rewrite run_app. cbn [app length]. rewrite Nat.add_0_l.
    set (z := zip_with (λ (row : list (list ascii)) (io : list F * list F), split_row n (atof <$> row) io) rows0 io0).
    assert (Hz : length z = length rows0) by (unfold z; rewrite zip_with_length; apply Forall2_length in Hf0; lia).
    pose proof (rows_line n last (length rows0) io (z ++ io :: ios2) (length last) Hc1) as HL. rewrite take_ge in HL by done.
    rewrite HL; [|rewrite <- Hz; by rewrite list_lookup_middle|done|done]. cbn [mbind option_bind]. rewrite rows_put by (done || (cbn; lia)). cbn [mbind option_bind snd app].
    rewrite take_ge by (by rewrite fmap_length). rewrite <- Hz, insert_app_r_alt by lia. rewrite Nat.sub_diag. cbn [insert list_insert].
    rewrite zip_with_app by (by eapply Forall2_length). cbn [zip_with]. rewrite <- app_assoc. done.
Qed.
Lemma single_chars_read n (cs : list ascii) io : fits n cs io -> single_chars atof (Some cs) n io = Some (0, split_row n (of_char atof <$> cs) io).
Proof.
  intros Hf. unfold single_chars. pose proof (chars_run n cs io (length cs) Hf (Nat.le_refl _)) as H. rewrite (take_ge cs) in H by done. rewrite H. cbn.
  by rewrite take_ge by (by rewrite fmap_length).
Qed.
Lemma rows_chars_read n text (rows : list (list ascii)) ios1 ios2 : char_table_text text rows -> Forall2 (fits n) rows ios1 ->
  rows_chars atof (Some text) n (ios1 ++ ios2) = Some (0, read_rows n ((fun r : list ascii => of_char atof <$> r) <$> rows) ios1 ++ ios2).
Proof.
  intros (Hc & Hor) Hf. unfold rows_chars, read_rows. rewrite zip_with_fmap_l. destruct Hor as [->|(rows0 & last & -> & ->)].
  - pose proof (char_table_run n rows [] ios1 ios2 Hc Hf) as H0; cbn [app length] in H0; rewrite H0. done.
  - apply list.Forall_app in Hc as [Hc0 Hc1]. apply list.Forall_cons in Hc1 as [Hc1 _].
    apply Forall2_app_inv_l in Hf as (io0 & io1 & Hf0 & Hf1 & ->). apply Forall2_cons_inv_l in Hf1 as (io & io1' & Hf1 & Hnil & ->). apply Forall2_nil_inv_l in Hnil as ->.
    rewrite run_app. rewrite <- app_assoc. pose proof (char_table_run n rows0 [] io0 ([io] ++ ios2) Hc0 Hf0) as H0; cbn [length] in H0; cbn [app] in H0 |- *; rewrite H0. cbn [mbind option_bind]. cbn [app length]. rewrite Nat.add_0_l.
    set (z := zip_with _ rows0 io0). assert (Hz : length z = length rows0) by (unfold z; rewrite zip_with_length; apply Forall2_length in Hf0; lia).
    pose proof (char_line n last (length rows0) io (z ++ io :: ios2) (length last) Hc1) as HL. rewrite take_ge in HL by done.
    rewrite HL; [|rewrite <- Hz; by rewrite list_lookup_middle|done|done]. cbn [mbind option_bind snd].
    rewrite take_ge by (by rewrite fmap_length). rewrite <- Hz, insert_app_r_alt by lia. rewrite Nat.sub_diag. cbn [insert list_insert].
    rewrite zip_with_app by (by eapply Forall2_length). cbn [zip_with]. rewrite <- app_assoc. done.
Qed.
Lemma each_file_read {X} (single : option (list ascii) -> nat -> list F * list F -> option (nat * (list F * list F))) (text : list ascii -> X -> Prop) (val : X -> list F) (ok : X -> list F * list F -> Prop) n
  (Hs : forall t x io, text t x -> ok x io -> single (Some t) n io = Some (0, split_row n (val x) io)) texts xs ios1 files2 ios2 :
  Forall2 text texts xs -> Forall2 ok xs ios1 ->
  each_file single n ((Some <$> texts) ++ files2) (ios1 ++ ios2) = '(r, ios) ← each_file single n files2 ios2; Some (r, read_rows n (val <$> xs) ios1 ++ ios).
Proof.
  intros Ht Ho. revert texts Ht. induction Ho as [|x io xs ios1 H1 Ho IH]; intros texts Ht.
  - apply Forall2_nil_inv_r in Ht as ->. cbn. by destruct (each_file single n files2 ios2) as [[]|].
  - apply Forall2_cons_inv_r in Ht as (t & texts' & Ht1 & Ht & ->). cbn. erewrite Hs by done. cbn. rewrite IH by done.
    destruct (each_file single n files2 ios2) as [[]|]; done.
Qed.
(** * Labelled examples *)
Lemma labelled_length examples dim : Forall (fun e : list ascii * nat => length e.1 = dim) examples -> length (labelled examples) = length examples * (dim + 1).
Proof.
  induction 1 as [|e es H1 H IH]; [done|]. unfold labelled. rewrite fmap_cons. change (mjoin (?a :: ?b)) with (a ++ mjoin b). rewrite app_length.
  change (mjoin _) with (labelled es). rewrite IH. rewrite app_length. cbn. lia.
Qed.
Lemma labelled_lookup (examples : list (list ascii * nat)) rest dim i e j : Forall (fun e : list ascii * nat => length e.1 = dim) examples -> examples !! i = Some e -> j <= dim ->
  (labelled examples ++ rest) !! (i * (dim + 1) + j) = (e.1 ++ [digit_char e.2]) !! j.
Proof.
  intros Hf. revert i. induction Hf as [|e0 es H1 H IH]; intros i Hi Hj; [done|]. unfold labelled. rewrite fmap_cons. change (mjoin (?a :: ?b)) with (a ++ mjoin b).
  change (mjoin _) with (labelled es). rewrite <- app_assoc. destruct i as [|i].
  - cbn in Hi. apply (inj Some) in Hi as ->. rewrite lookup_app_l by (rewrite app_length; cbn; lia). done.
  - cbn in Hi. rewrite lookup_app_r by (rewrite app_length; cbn; lia). rewrite app_length, H1. cbn [length].
    replace (S i * (dim + 1) + j - (dim + 1)) with (i * (dim + 1) + j) by lia. by apply IH.
Qed.
Lemma mapM_seq {A} (f : nat -> option A) (l : list A) : (forall i x, l !! i = Some x -> f i = Some x) -> mapM f (seq 0 (length l)) = Some l.
Proof.
  intros H. apply mapM_Some. apply Forall2_lookup. intros i. destruct (decide (i < length l)) as [Hi|Hi].
  - rewrite lookup_seq_lt by done. destruct (lookup_lt_is_Some_2 l i Hi) as [x Hx]. rewrite Hx. constructor. by apply H.
  - rewrite lookup_seq_ge by lia. rewrite lookup_ge_None_2 by lia. constructor.
Qed.
Lemma label_inputs_read examples rest dim : Forall (fun e : list ascii * nat => length e.1 = dim) examples ->
  label_inputs atof (Some (labelled examples ++ rest)) dim (length examples) = Some ((fun e : list ascii * nat => of_char atof <$> e.1) <$> examples).
Proof.
  intros Hf. unfold label_inputs. cbn [mbind option_bind]. rewrite <- (fmap_length (fun e : list ascii * nat => of_char atof <$> e.1) examples). apply mapM_seq. intros i x Hx.
  apply list_lookup_fmap_inv in Hx as (e & -> & He). assert (Hd : length e.1 = dim) by (by eapply (proj1 (Forall_lookup _ _) Hf)).
  rewrite <- Hd at 1. rewrite <- (fmap_length (of_char atof) e.1). apply mapM_seq. intros j y Hy. apply list_lookup_fmap_inv in Hy as (c & -> & Hc).
  assert (j < length e.1) by (by eapply lookup_lt_Some). unfold rd. erewrite labelled_lookup by (done || lia). rewrite lookup_app_l by done. rewrite Hc. done.
Qed.
Lemma digit_digit_char d : d < 10 -> digit (digit_char d) = d.
Proof. intros H. unfold digit, digit_char. rewrite nat_ascii_embedding by lia. rewrite decide_True by lia. lia. Qed.
Lemma wr_one_hot (zero one : F) out d : d < out -> wr (replicate out zero) d one = Some (one_hot zero one out d).
Proof.
  intros H. rewrite wr_Some by (rewrite replicate_length; lia). f_equal. unfold one_hot. replace out with (d + S (out - S d)) at 1 by lia. rewrite replicate_add.
  rewrite insert_app_r_alt by (rewrite replicate_length; lia). rewrite replicate_length, Nat.sub_diag. done.
Qed.
Lemma label_outputs_read (zero one : F) examples rest dim out : Forall (fun e : list ascii * nat => length e.1 = dim) examples -> Forall (fun e : list ascii * nat => e.2 < 10 /\ e.2 < out) examples ->
  label_outputs zero one (Some (labelled examples ++ rest)) dim out (length examples) = Some ((fun e : list ascii * nat => one_hot zero one out e.2) <$> examples).
Proof.
  intros Hf Hd. unfold label_outputs. cbn [mbind option_bind]. rewrite <- (fmap_length (fun e : list ascii * nat => one_hot zero one out e.2) examples). apply mapM_seq. intros i x Hx.
  apply list_lookup_fmap_inv in Hx as (e & -> & He). assert (Hl : length e.1 = dim) by (by eapply (proj1 (Forall_lookup _ _) Hf)).
  assert (Hde : e.2 < 10 /\ e.2 < out) by (by eapply (proj1 (Forall_lookup _ _) Hd)). unfold rd. erewrite labelled_lookup by (done || lia).
  rewrite lookup_app_r by lia. rewrite Hl, Nat.sub_diag. cbn [lookup list_lookup mbind option_bind]. rewrite digit_digit_char by (apply Hde). apply wr_one_hot, Hde.
Qed.
End readers.
