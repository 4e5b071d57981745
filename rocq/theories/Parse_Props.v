(** C48: a data file is read into the arrays it describes. *)
From Verif Require Import Parse_Model Parse_Spec Parse_Proofs BaseLemmas.
Open Scope nat_scope.

Section props.
Context {F : Type} (atof : list ascii -> F).

(** single_instance_single_csv_file_parser: the numbers go to the inputs and then to the outputs, nothing else is written *)
Theorem csv_row_is_read n text (row : list (list ascii)) io : row_text text row -> fits n row io ->
  single_csv atof (Some text) n io = Some (0, split_row n (atof <$> row) io).
Proof. apply single_csv_read. Qed.
(** where split_row puts number j, and what it leaves *)
Theorem csv_row_cells n (row : list F) io : fits n row io ->
  length (split_row n row io).1 = length io.1 /\ length (split_row n row io).2 = length io.2 /\
  (forall j, j < n -> (split_row n row io).1 !! j = match row !! j with Some x => Some x | None => io.1 !! j end) /\
  (forall j, n <= j -> (split_row n row io).1 !! j = io.1 !! j) /\
  (forall j, (split_row n row io).2 !! j = match row !! (n + j) with Some x => Some x | None => io.2 !! j end).
Proof.
  intros [H1 H2]. unfold split_row, filled. cbn [fst snd]. rewrite take_length in H1. rewrite drop_length in H2.
  split; [rewrite app_length, drop_length, take_length; lia|]. split; [rewrite app_length, !drop_length; lia|].
  rewrite take_length, drop_length. split; [|split].
  - intros j Hj. destruct (decide (j < length row)) as [Hr|Hr].
    + destruct (lookup_lt_is_Some_2 row j Hr) as [x Hx]. rewrite Hx. rewrite lookup_app_l by (rewrite take_length; lia). by rewrite lookup_take.
    + rewrite (lookup_ge_None_2 row) by lia. rewrite lookup_app_r by (rewrite take_length; lia). rewrite lookup_drop, take_length. f_equal. lia.
  - intros j Hj. rewrite lookup_app_r by (rewrite take_length; lia). rewrite lookup_drop, take_length. f_equal. lia.
  - intros j. destruct (decide (n + j < length row)) as [Hr|Hr].
    + destruct (lookup_lt_is_Some_2 row (n + j) Hr) as [x Hx]. rewrite Hx. rewrite lookup_app_l by (rewrite drop_length; lia). by rewrite lookup_drop.
    + rewrite (lookup_ge_None_2 row) by lia. rewrite lookup_app_r by (rewrite drop_length; lia). rewrite lookup_drop, drop_length. f_equal. lia.
Qed.
(** multiple_instance_single_csv_file_parser: instance i gets line i *)
Theorem csv_table_is_read n text (rows : list (list (list ascii))) ios more : table_text text rows -> Forall2 (fits n) rows ios ->
  rows_csv atof (Some text) n (ios ++ more) = Some (0, read_rows n ((fun r : list (list ascii) => atof <$> r) <$> rows) ios ++ more).
Proof. apply rows_csv_read. Qed.
(** A number at the end of a line without a separator behind it (the way tables are usually written) is dropped, silently and
    in every row: the rows are read as if these numbers were not there. *)
Definition table_with_ends (rows : list (list (list ascii) * list ascii)) : list ascii := mjoin ((fun r => line (fst r) ++ snd r ++ [newline]) <$> rows).
Theorem csv_number_before_newline_is_dropped_refuted n (rows : list (list (list ascii) * list ascii)) ios more :
  Forall (fun r => Forall field (fst r) /\ length (snd r) <= 256 /\ semi ∉ snd r /\ newline ∉ snd r) rows -> Forall2 (fits n) (fst <$> rows) ios ->
  rows_csv atof (Some (table_with_ends rows)) n (ios ++ more) = rows_csv atof (Some (table (fst <$> rows))) n (ios ++ more).
Proof.
  intros Hr Hf.
  assert (Hrow : Forall (Forall field) (fst <$> rows)). { apply Forall_fmap. eapply list.Forall_impl; [exact Hr|]. by intros r (H & _). }
  rewrite (csv_table_is_read n (table (fst <$> rows)) (fst <$> rows)); [|split; [done|]; exists []; split; [split; [cbn; lia|done]|left; by rewrite app_nil_r]|done].
  unfold rows_csv. enough (H : forall ios1, run (csv_rows_step atof n) (table_with_ends rows) ([], 0, length ios1, ios1 ++ ios ++ more)
    = Some ([], 0, length ios1 + length rows, ios1 ++ zip_with (fun row io => split_row n (atof <$> row) io) (fst <$> rows) ios ++ more)).
  { specialize (H []). cbn [app length] in H. rewrite H. cbn [mbind option_bind snd]. unfold read_rows. generalize (fst <$> rows). intros fs. by rewrite zip_with_fmap_l. }
  clear Hrow. remember (fst <$> rows) as fs eqn:E. revert rows E Hr. induction Hf as [|row io fs ios H1 H2 IH]; intros rows E Hr ios1.
  - symmetry in E. apply fmap_nil_inv in E as ->. cbn. by rewrite Nat.add_0_r.
  - symmetry in E. apply fmap_cons_inv in E as ([row' e] & rows' & -> & -> & ->). cbn [fst] in *. apply list.Forall_cons in Hr as ((Hf1 & Hl & Hs & Hn) & Hr). cbn [fst snd] in *.
    unfold table_with_ends. rewrite fmap_cons. cbn [mjoin list_join fst snd]. rewrite !run_app.
    change (mjoin ((λ r, line (fst r) ++ snd r ++ [newline]) <$> rows')) with (table_with_ends rows').
    pose proof (rows_line atof n row' (length ios1) io (ios1 ++ (io :: ios) ++ more) (length row') Hf1) as HL.
    rewrite take_ge in HL by done. rewrite HL; [|cbn [app]; by rewrite list_lookup_middle|done|done]. cbn [mbind option_bind]. rewrite (run_app _ e), rows_put by (done || (cbn; lia)). cbn [mbind option_bind run csv_rows_step].
    rewrite decide_False by (by intros [_ ?]). rewrite decide_False by tauto. cbn [mbind option_bind].
    rewrite (take_ge (atof <$> row')) by (by rewrite fmap_length).
    specialize (IH rows' eq_refl Hr (ios1 ++ [split_row n (atof <$> row') io])). rewrite app_length in IH. cbn [length] in IH.
    replace (S (length ios1)) with (length ios1 + 1) by lia. cbn [app]. rewrite insert_app_r_alt by lia. rewrite Nat.sub_diag. cbn [insert list_insert].
    rewrite <- app_assoc in IH. cbn [app] in IH. rewrite IH. cbn [length zip_with]. rewrite <- !app_assoc. cbn [app]. do 3 f_equal. lia.
Qed.
(** single_instance_multiple_csv_file_parser *)
Theorem csv_files_are_read n texts (rows : list (list (list ascii))) ios more : Forall2 row_text texts rows -> Forall2 (fits n) rows ios ->
  each_file (single_csv atof) n (Some <$> texts) (ios ++ more) = Some (0, read_rows n ((fun r : list (list ascii) => atof <$> r) <$> rows) ios ++ more).
Proof.
  intros Ht Hf. pose proof (each_file_read (single_csv atof) row_text (fun r : list (list ascii) => atof <$> r) (fits n) n (fun t x io => single_csv_read atof n t x io) texts rows ios [] more Ht Hf) as H.
  rewrite app_nil_r in H. rewrite H. done.
Qed.
(** the first file that cannot be opened ends the reading: those before it are read, the arrays after it are unchanged and the result is 1 *)
Theorem csv_missing_file n texts (rows : list (list (list ascii))) ios io more files : Forall2 row_text texts rows -> Forall2 (fits n) rows ios ->
  each_file (single_csv atof) n ((Some <$> texts) ++ None :: files) (ios ++ io :: more)
    = Some (1, read_rows n ((fun r : list (list ascii) => atof <$> r) <$> rows) ios ++ io :: more).
Proof.
  intros Ht Hf. rewrite (each_file_read (single_csv atof) row_text (fun r : list (list ascii) => atof <$> r) (fits n) n (fun t x io => single_csv_read atof n t x io) texts rows ios (None :: files) (io :: more) Ht Hf). done.
Qed.
(** the readers of one character per number *)
Theorem chars_are_read n text io : fits n text io -> single_chars atof (Some text) n io = Some (0, split_row n (of_char atof <$> text) io).
Proof. apply single_chars_read. Qed.
Theorem char_table_is_read n text (rows : list (list ascii)) ios more : char_table_text text rows -> Forall2 (fits n) rows ios ->
  rows_chars atof (Some text) n (ios ++ more) = Some (0, read_rows n ((fun r : list ascii => of_char atof <$> r) <$> rows) ios ++ more).
Proof. apply rows_chars_read. Qed.
Theorem char_files_are_read n texts ios more : Forall2 (fits n) texts ios ->
  each_file (single_chars atof) n (Some <$> texts) (ios ++ more) = Some (0, read_rows n ((fun r : list ascii => of_char atof <$> r) <$> texts) ios ++ more).
Proof.
  intros Hf. pose proof (each_file_read (single_chars atof) eq (fun r : list ascii => of_char atof <$> r) (fits n) n) as H.
  specialize (H ltac:(intros t x io <- Hx; by apply single_chars_read) texts texts ios [] more ltac:(by apply Forall2_same_length_lookup; split; [|congruence]) Hf).
  rewrite app_nil_r in H. rewrite H. done.
Qed.
(** the readers of labelled examples: dim characters and the digit of the class, with nothing between the examples *)
Theorem labelled_examples_are_read (zero one : F) (examples : list (list ascii * nat)) rest dim out :
  Forall (fun e => length e.1 = dim) examples -> Forall (fun e => e.2 < 10 /\ e.2 < out) examples ->
  label_inputs atof (Some (labelled examples ++ rest)) dim (length examples) = Some ((fun e : list ascii * nat => of_char atof <$> e.1) <$> examples) /\
  label_outputs zero one (Some (labelled examples ++ rest)) dim out (length examples) = Some ((fun e : list ascii * nat => one_hot zero one out e.2) <$> examples).
Proof. intros H1 H2. split; [by apply label_inputs_read|by apply label_outputs_read]. Qed.

(** * What goes wrong *)
(** a last number without its semicolon is dropped without an error *)
Theorem csv_unterminated_number_refuted n (row : list (list ascii)) (last : list ascii) io : Forall cell row -> fits n row io -> length last <= 256 -> semi ∉ last ->
  single_csv atof (Some (line row ++ last)) n io = single_csv atof (Some (line row)) n io.
Proof.
  intros Hc Hf Hl Hs. rewrite (single_csv_read atof n _ row), (single_csv_read atof n _ row); [done| |done| |done]; (split; [done|]).
  - exists []. split; [split; [cbn; lia|done]|by rewrite app_nil_r].
  - exists last. split; [|done]. split; [done|]. apply list.Forall_forall. intros c Hc' ->%elem_of_list_singleton. done.
Qed.
(** a number of 256 characters is written behind the end of a buffer; so is the number that comes after the last place of the arrays *)
Theorem csv_long_number_refuted n (row : list (list ascii)) (f rest : list ascii) io : Forall cell row -> fits n row io -> length f >= 256 -> semi ∉ f ->
  single_csv atof (Some (line row ++ f ++ [semi] ++ rest)) n io = None.
Proof.
  intros Hc Hf Hl Hs. unfold single_csv. rewrite run_app. pose proof (line_run atof n row io (length row) Hc Hf (Nat.le_refl _)) as H. rewrite take_ge in H by done. rewrite H.
  cbn [mbind option_bind]. rewrite run_app. destruct (decide (length f = 256)) as [He|He].
  - rewrite put_run by (done || (cbn; lia)). cbn [mbind option_bind app run csv_step]. rewrite decide_False by tauto. unfold number. rewrite decide_False by lia. done.
  - rewrite put_overflow by (done || (cbn; lia)). done.
Qed.
Theorem csv_too_many_numbers_refuted (row : list (list ascii)) (f rest : list ascii) (io : list F * list F) : Forall cell row -> length row = length io.1 + length io.2 -> cell f ->
  single_csv atof (Some (line row ++ f ++ [semi] ++ rest)) (length io.1) io = None.
Proof.
  intros Hc Hr (Hl & Hs & Hn). assert (Hf : fits (length io.1) row io) by (split; [rewrite take_length; lia|rewrite drop_length; lia]).
  unfold single_csv. rewrite run_app. pose proof (line_run atof _ row io (length row) Hc Hf (Nat.le_refl _)) as H. rewrite take_ge in H by done. rewrite H.
  cbn [mbind option_bind]. rewrite run_app. rewrite put_run by (done || (cbn; lia)). cbn [mbind option_bind app run csv_step]. rewrite decide_False by tauto.
  unfold number. rewrite decide_True by lia. cbn [mbind option_bind]. unfold store. rewrite decide_False by lia. unfold wr. rewrite decide_False; [done|].
  destruct (csv_row_cells (length io.1) (take (length row) (atof <$> row)) io) as (_ & -> & _); [|lia].
  rewrite take_ge by (by rewrite fmap_length). split; [rewrite <- fmap_take|rewrite <- fmap_drop]; rewrite fmap_length; apply Hf.
Qed.
(** the newline that editors put at the end of a file counts as a number of a file of characters, and is written behind the end of the arrays *)
Theorem chars_final_newline_refuted (text : list ascii) (io : list F * list F) : length text = length io.1 + length io.2 ->
  single_chars atof (Some text) (length io.1) io <> None /\ single_chars atof (Some (text ++ [newline])) (length io.1) io = None.
Proof.
  intros Ht. assert (Hf : fits (length io.1) text io) by (split; [rewrite take_length; lia|rewrite drop_length; lia]).
  split; [by rewrite single_chars_read|]. unfold single_chars. rewrite run_app. pose proof (chars_run atof _ text io (length text) Hf (Nat.le_refl _)) as H. rewrite (take_ge text) in H by done.
  rewrite H. cbn [mbind option_bind run]. unfold char_step. cbn [fst snd]. unfold store. rewrite decide_False by lia. unfold wr. rewrite decide_False; [done|].
  destruct (csv_row_cells (length io.1) (take (length text) ((fun c => atof (c_string [c])) <$> text)) io) as (_ & -> & _); [|lia].
  rewrite take_ge by (by rewrite fmap_length). split; [rewrite <- fmap_take|rewrite <- fmap_drop]; rewrite fmap_length; apply Hf.
Qed.
(** labelled examples on lines of their own are read one place off from the second on: its first input is the newline, its class is its last input *)
Theorem labelled_lines_refuted (zero one : F) (x0 x1 : list ascii) (b y0 y1 : ascii) dim out : length x0 = dim -> length x1 + 1 = dim -> digit y0 < out -> digit b < out ->
  let file := Some ((x0 ++ [y0; newline]) ++ (x1 ++ [b]) ++ [y1; newline]) in
  label_inputs atof file dim 2 = Some [of_char atof <$> x0; of_char atof <$> newline :: x1] /\
  label_outputs zero one file dim out 2 = Some [one_hot zero one out (digit y0); one_hot zero one out (digit b)].
Proof.
  intros H0 H1 Hy Hb file. subst file. assert (E : (x0 ++ [y0; newline]) ++ (x1 ++ [b]) ++ [y1; newline] = (x0 ++ [y0]) ++ (newline :: x1) ++ [b; y1; newline]).
  { rewrite <- !app_assoc. done. }
  rewrite E. split.
  - unfold label_inputs. cbn [mbind option_bind]. apply (mapM_seq _ [of_char atof <$> x0; of_char atof <$> newline :: x1]). intros i l Hl.
    destruct i as [|[|i]]; [| |done]; cbn in Hl; apply (inj Some) in Hl as <-.
    + rewrite <- H0 at 1. rewrite <- (fmap_length (of_char atof) x0). apply mapM_seq. intros j y Hj. apply list_lookup_fmap_inv in Hj as (c & -> & Hc).
      cbn [Nat.mul Nat.add]. unfold rd. rewrite <- app_assoc. rewrite lookup_app_l by (by eapply lookup_lt_Some). by rewrite Hc.
    + replace dim with (length (of_char atof <$> newline :: x1)) at 1 by (rewrite fmap_length; cbn; lia). apply mapM_seq. intros j y Hj. rewrite <- fmap_cons in Hj. apply list_lookup_fmap_inv in Hj as (c & -> & Hc).
      unfold rd. rewrite lookup_app_r by (rewrite app_length; cbn; lia). rewrite app_length, H0. cbn [length]. replace (1 * (dim + 1) + j - (dim + 1)) with j by lia.
      rewrite lookup_app_l by (by eapply lookup_lt_Some). by rewrite Hc.
  - unfold label_outputs. cbn [mbind option_bind]. apply (mapM_seq _ [one_hot zero one out (digit y0); one_hot zero one out (digit b)]). intros i l Hl.
    destruct i as [|[|i]]; [| |done]; cbn in Hl; apply (inj Some) in Hl as <-.
    + cbn [Nat.mul Nat.add]. unfold rd. rewrite <- app_assoc. rewrite lookup_app_r by lia. rewrite H0, Nat.sub_diag. cbn [lookup list_lookup app mbind option_bind]. by apply wr_one_hot.
    + unfold rd. rewrite app_assoc. rewrite lookup_app_r by (rewrite !app_length; cbn; lia). rewrite !app_length, H0. cbn [length].
      replace (1 * (dim + 1) + dim - (dim + 1 + S (length x1))) with 0 by lia. cbn [lookup list_lookup mbind option_bind]. by apply wr_one_hot.
Qed.
(** a class that is not smaller than the number of outputs is written behind the end of the outputs; a file that cannot be opened is not noticed *)
Theorem label_out_of_range_refuted (zero one : F) (x : list ascii) (d : nat) rest out : d < 10 -> out <= d ->
  label_outputs zero one (Some (labelled [(x, d)] ++ rest)) (length x) out 1 = None.
Proof.
  intros Hd Ho. unfold label_outputs. cbn [mbind option_bind seq mapM]. unfold rd. rewrite (labelled_lookup [(x, d)] rest (length x) 0 (x, d)); [|by constructor|done|lia].
  cbn [fst snd]. rewrite lookup_app_r by lia. rewrite Nat.sub_diag. cbn [lookup list_lookup mbind option_bind]. rewrite digit_digit_char by done.
  unfold wr. rewrite decide_False by (rewrite replicate_length; lia). done.
Qed.
Theorem label_missing_file_refuted (zero one : F) dim out instances : label_inputs atof None dim instances = None /\ label_outputs zero one None dim out instances = None.
Proof. done. Qed.
End props.

(** * Examples, with the length of a string as its number *)
Definition str (s : string) : list ascii := String.list_ascii_of_string s.
Example ex_csv : single_csv length (Some (str "1;22;333;4444;
")) 3 ([0; 0; 0; 7], [0; 0]) = Some (0, ([1; 2; 3; 7], [4; 0])).
Proof. vm_compute. reflexivity. Qed.
Example ex_row_text : row_text (str "1;22;333;4444;
") (str <$> ["1"; "22"; "333"; "4444"]%string) /\ fits 3 (str <$> ["1"; "22"; "333"; "4444"]%string) ([0; 0; 0; 7], [0; 0]).
Proof.
  split; [|split; cbn; lia]. split; [|exists [newline]; split; [split; [cbn; lia|]|vm_compute; reflexivity]].
  - repeat constructor; try (cbn; lia); cbn; set_solver.
  - repeat constructor. set_solver.
Qed.
Example ex_table : table_text (str "1;22;
333;4;") [str <$> ["1"; "22"]; str <$> ["333"; "4"]]%string /\
  rows_csv length (Some (str "1;22;
333;4;")) 1 [([0], [0]); ([0], [0]); ([8], [9])] = Some (0, [([1], [2]); ([3], [1]); ([8], [9])]).
Proof.
  split; [|vm_compute; reflexivity]. split.
  - repeat constructor; try (cbn; lia); cbn; set_solver.
  - exists []. split; [split; [cbn; lia|done]|]. right. exists [str <$> ["1"; "22"]%string], (str <$> ["333"; "4"]%string). split; [done|vm_compute; reflexivity].
Qed.
Example ex_missing : each_file (single_csv length) 1 [Some (str "1;22;"); None; Some (str "1;22;")] [([0], [0]); ([0], [0]); ([0], [0])] = Some (1, [([1], [2]); ([0], [0]); ([0], [0])]).
Proof. vm_compute. reflexivity. Qed.
(** a number is here the code of its first character *)
Definition code (l : list ascii) : nat := match l with [] => 0 | c :: _ => nat_of_ascii c end.
Example ex_chars : char_table_text (str "101
011") [str "101"; str "011"] /\ rows_chars code (Some (str "101
011")) 2 [([0; 0], [0]); ([0; 0], [0])] = Some (0, [([49; 48], [49]); ([48; 49], [49])]).
Proof. split; [|vm_compute; reflexivity]. split; [repeat constructor; cbn; set_solver|]. right. exists [str "101"], (str "011"). done. Qed.
Example ex_single_chars : single_chars code (Some (str "101")) 2 ([0; 0], [0]) = Some (0, ([49; 48], [49])) /\ single_chars code (Some (str "101
")) 2 ([0; 0], [0]) = None.
Proof. split; vm_compute; reflexivity. Qed.
Example ex_labelled : labelled [(str "01", 2); (str "10", 0)] = str "012100" /\
  label_inputs code (Some (str "012100")) 2 2 = Some [[48; 49]; [49; 48]] /\ label_outputs 0 1 (Some (str "012100")) 2 3 2 = Some [[0; 0; 1]; [1; 0; 0]].
Proof. split; [|split]; vm_compute; reflexivity. Qed.
Example ex_labelled_lines : label_inputs code (Some (str "012
100
")) 2 2 = Some [[48; 49]; [10; 49]].
Proof. vm_compute; reflexivity. Qed.
Example ex_unterminated : single_csv length (Some (str "1;22;333")) 2 ([0; 0], [5]) = Some (0, ([1; 2], [5])).
Proof. vm_compute. reflexivity. Qed.

Print Assumptions csv_row_is_read.
Print Assumptions csv_row_cells.
Print Assumptions csv_table_is_read.
Print Assumptions csv_number_before_newline_is_dropped_refuted.
Print Assumptions csv_files_are_read.
Print Assumptions csv_missing_file.
Print Assumptions chars_are_read.
Print Assumptions char_table_is_read.
Print Assumptions char_files_are_read.
Print Assumptions labelled_examples_are_read.
Print Assumptions csv_unterminated_number_refuted.
Print Assumptions csv_long_number_refuted.
Print Assumptions csv_too_many_numbers_refuted.
Print Assumptions chars_final_newline_refuted.
Print Assumptions labelled_lines_refuted.
Print Assumptions label_out_of_range_refuted.
Print Assumptions label_missing_file_refuted.
