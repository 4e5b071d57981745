(** C57: a description of a model is parsed into the model it describes. *)
From Verif Require Import Desc_Model Desc_Spec Parse_Spec Parse_Proofs Desc_Proofs Desc2_Proofs BaseLemmas.
Open Scope nat_scope.

Section props.
Context {F L C : Type} (atof : list ascii -> F) (mk_fcl : list F -> option L) (mk_cl : list F -> option C) (toint : F -> option Z).
Notation parse := (parse_text atof mk_fcl mk_cl toint).

Lemma flat_length (pieces : list (piece L C)) : length (flat pieces) = length (convs pieces) + in_blocks pieces.
Proof.
  unfold in_blocks. induction pieces as [|x pieces IH]; [done|]. rewrite flat_cons, app_length, IH, blocks_cons, convs_cons. destruct x as [|c|a id [|c cs]]; cbn; rewrite ?fmap_length; lia.
Qed.
Lemma means_nonempty parts (pieces : list (piece L C)) : Forall2 (means atof mk_fcl mk_cl toint) parts pieces -> Forall (fun x : piece L C => match x with PBlock _ _ [] => False | _ => True end) pieces.
Proof. induction 1 as [|x y parts pieces Hxy H IH]; constructor; [by destruct Hxy|done]. Qed.

(** the arguments of network() are the layers and the blocks of the description, each built from its own numbers, in the order of the text *)
Theorem description_is_parsed header parts (pieces : list (piece L C)) : Forall field header -> Forall2 (means atof mk_fcl mk_cl toint) parts pieces -> apart None pieces ->
  occurrences full_name header = length (denses pieces) -> occurrences conv_name header = length (convs pieces) -> occurrences rconv_name header = in_blocks pieces ->
  occurrences res_name header = length (blocks pieces) -> length (convs pieces) + in_blocks pieces <= 1024 ->
  parse_file atof mk_fcl mk_cl toint (Some (description header parts))
    = Some (Some (length (denses pieces) + (length (convs pieces) + in_blocks pieces), blocks pieces, convs pieces, denses pieces)).
Proof.
  intros Hh Hm Hap H1 H2 H3 H4 H5. pose proof (flat_length pieces) as Hfl.
  destruct (read_description atof mk_fcl mk_cl toint header parts pieces Hh Hm) as (buf & k & E & _ & Hinv); [lia|lia|lia|]. unfold parse_file, parse_text. rewrite E. cbn [mbind option_bind].
  destruct (assemble_spec k _ _ _ _ _ pieces Hinv (means_nonempty _ _ Hm) Hap) as (g & Eg & Hr & Hc); [lia|lia|lia|]. rewrite Eg. cbn [mbind option_bind]. rewrite Hr, Hc, !mapM_full. cbn [mbind option_bind].
  destruct Hinv. rewrite i_fcls, H1, Nat.sub_diag, mapM_full. cbn [mbind option_bind]. rewrite i_nf, i_nt, H1, H2, H3. done.
Qed.
(** a file that cannot be opened gives no model *)
Theorem missing_description : parse_file atof mk_fcl mk_cl toint None = Some None.
Proof. done. Qed.

(** * What goes wrong *)
Lemma mapM_not_full {A} (l : list A) m : mapM (fun x : option A => x) (part_full l (S m)) = None.
Proof. unfold part_full. induction l as [|a l IH]; [done|]. cbn. cbn in IH. by rewrite IH. Qed.
(** a parameter line with too few numbers is completed with those of the layer before it, without an error *)
Theorem short_line_reuses_refuted header p1 p2 l1 l2 : Forall field header -> params 11 p1 -> params 1 p2 -> length p2 < 11 ->
  occurrences full_name header = 2 -> occurrences conv_name header = 0 -> occurrences rconv_name header = 0 -> occurrences res_name header = 0 ->
  mk_fcl (atof <$> take 11 p1) = Some l1 -> mk_fcl (atof <$> p2 ++ take (11 - length p2) (drop (length p2) p1)) = Some l2 ->
  parse (description header [Dense p1; Dense p2]) = Some (2, [], [], [l1; l2]).
Proof.
  intros Hh Hp1 Hp2 Hs H1 H2 H3 H4 Hl1 Hl2. unfold parse_text, description. rewrite run_app.
  destruct (read_header atof mk_fcl mk_cl toint header (replicate 256 None) (replicate 256 None) 0 0 0 0 0 0 [] [] (replicate 1024 None) (replicate 1024 None) (replicate 1024 None) 0 0 Hh) as (b1 & E1 & Hb1); [apply replicate_length|].
  change (@start F L C) with (Core (replicate 256 None) 0 0 false 0 0 0 0 [] [] (replicate 1024 None) (replicate 1024 None) (replicate 1024 None) 0 0 : @core F L C).
  rewrite E1, H1, H2, H3, H4. cbn [mbind option_bind Nat.add]. rewrite run_app, read_newline. cbn [on_newline mbind option_bind].
  change (mjoin (part_text <$> [Dense p1; Dense p2])) with (layer_text full_name p1 ++ layer_text full_name p2 ++ []). rewrite app_nil_r, run_app.
  set (fs0 := replicate 256 (None : option F)). assert (Hfs0 : length fs0 = 256) by apply replicate_length. clearbody fs0.
  set (tags := replicate 1024 (None : option nat)). set (tags2 := replicate 1024 (None : option Z)). clearbody tags tags2.
  destruct (read_layer atof mk_fcl mk_cl toint full_name 2 tags p1 b1 fs0 0 2 0 0 0 (replicate 2 None) (replicate 0 None) tags tags2 tags2 0 0) as (b2 & Hb2 & Hf2 & E2);
    [done|apply names_field|by eapply params_weaken|done|done|intros; apply on_name_full|].
  rewrite E2. clear E2. cbn [on_newline]. destruct Hp1 as [Hp1f Hp1l]. rewrite numbers_filled by (rewrite fmap_length; lia). cbn [mbind option_bind]. rewrite <- fmap_take, Hl1. cbn [mbind option_bind].
  rewrite wr_Some by (cbn; lia). cbn [mbind option_bind].
  set (fs1 := filled (Some <$> (atof <$> p1)) (filled [Some (atof full_name)] fs0)). assert (Hfs1 : length fs1 = 256) by (unfold fs1; rewrite filled_length; [done|rewrite !fmap_length; lia]).
  destruct (read_layer atof mk_fcl mk_cl toint full_name 2 tags p2 b2 fs1 0 2 0 0 0 (<[0 := Some l1]> (replicate 2 None)) (replicate 0 None) tags tags2 tags2 1 0) as (b3 & Hb3 & Hf3 & E3);
    [done|apply names_field|by eapply params_weaken|done|done|intros; apply on_name_full|].
  rewrite E3. cbn [on_newline]. destruct Hp2 as [Hp2f Hp2l].
  assert (En : numbers 11 (filled (Some <$> (atof <$> p2)) (filled [Some (atof full_name)] fs1)) = Some (atof <$> p2 ++ take (11 - length p2) (drop (length p2) p1))).
  { unfold numbers. assert (El : 11 = length (atof <$> p2 ++ take (11 - length p2) (drop (length p2) p1))) by (rewrite fmap_length, app_length, take_length, drop_length; lia).
    rewrite El at 1. apply mapM_seq. intros i x Hx. apply list_lookup_fmap_inv in Hx as (t & -> & Hx). unfold rd, filled at 1. apply lookup_app_Some in Hx as [Hx|[Hi Hx]].
    - rewrite lookup_app_l by (rewrite !fmap_length; by eapply lookup_lt_Some). rewrite !list_lookup_fmap, Hx. done.
    - assert (Hi2 : i - length p2 < 11 - length p2) by (apply lookup_lt_Some in Hx; rewrite take_length in Hx; lia). rewrite lookup_take in Hx by done. rewrite lookup_drop in Hx.
      replace (length p2 + (i - length p2)) with i in Hx by lia.
      rewrite lookup_app_r by (rewrite !fmap_length; lia). rewrite lookup_drop, !fmap_length. replace (length p2 + (i - length p2)) with i by lia.
      unfold filled. rewrite lookup_app_r by (cbn; lia). rewrite lookup_drop. cbn [length]. replace (1 + (i - 1)) with i by lia.
      unfold fs1, filled. rewrite lookup_app_l by (rewrite !fmap_length; lia). rewrite !list_lookup_fmap, Hx. done. }
  rewrite En. cbn [mbind option_bind]. rewrite Hl2. cbn [mbind option_bind]. rewrite wr_Some by (cbn; lia). cbn [mbind option_bind].
  unfold assemble. cbn [k_nt k_nc k_nr for_loop mbind option_bind replicate g_open g_rls g_cls mapM list_insert insert k_fcls k_nf Nat.add]. done.
Qed.
(** a first line with numbers instead of names, as the comment above the function asks for, leaves no room for the layers *)
Theorem documented_header_refuted header p rest : Forall field header -> occurrences full_name header = 0 -> params 11 p ->
  parse (line header ++ [newline] ++ layer_text full_name p ++ rest) = None.
Proof.
  intros Hh H1 Hp. unfold parse_text. rewrite run_app.
  destruct (read_header atof mk_fcl mk_cl toint header (replicate 256 None) (replicate 256 None) 0 0 0 0 0 0 [] [] (replicate 1024 None) (replicate 1024 None) (replicate 1024 None) 0 0 Hh) as (b1 & E1 & Hb1); [apply replicate_length|].
  change (@start F L C) with (Core (replicate 256 None) 0 0 false 0 0 0 0 [] [] (replicate 1024 None) (replicate 1024 None) (replicate 1024 None) 0 0 : @core F L C).
  rewrite E1, H1. cbn [mbind option_bind Nat.add]. rewrite run_app, read_newline. cbn [on_newline mbind option_bind]. rewrite run_app.
  edestruct (read_layer atof mk_fcl mk_cl toint full_name 2) as (b2 & Hb2 & Hf2 & E2); [reflexivity|apply names_field|by eapply params_weaken|exact Hb1|apply replicate_length|intros; apply on_name_full|].
  rewrite E2. cbn [on_newline]. destruct (numbers 11 _) as [ps|]; [|done]. cbn [mbind option_bind]. destruct (mk_fcl ps) as [l|]; [|done]. done.
Qed.
(** without the newline of the last line the last layer is missing *)
Theorem missing_newline_refuted header parts (pieces : list (piece L C)) p : Forall field header -> Forall2 (means atof mk_fcl mk_cl toint) parts pieces -> params 11 p ->
  occurrences full_name header = S (length (denses pieces)) -> length (flat pieces) <= occurrences conv_name header + occurrences rconv_name header -> length (flat pieces) <= 1024 ->
  parse (description header parts ++ line [full_name] ++ [newline] ++ line p) = None.
Proof.
  intros Hh Hm Hp H1 H2 H3. unfold parse_text. rewrite run_app.
  destruct (read_description atof mk_fcl mk_cl toint header parts pieces Hh Hm) as (b2 & k2 & E & Hb2 & Hi2); [lia|lia|lia|]. rewrite E. cbn [mbind option_bind]. destruct Hi2. destruct k2 as [fs ki kf kb knf knc knt knr fcls cls kd ac bl cf cc].
  cbn [k_floats k_int k_flag k_body k_nf k_nc k_nt k_nr k_fcls k_cls k_kind k_act k_block k_cf k_cc] in *. subst.
  edestruct (read_open atof mk_fcl mk_cl toint full_name 2 kd p b2 fs) as (b3 & fs3 & E3); [apply names_field|by eapply params_weaken|done|done|intros; apply on_name_full|].
  rewrite E3. cbn [mbind option_bind]. destruct (assemble _) as [g|]; [|done]. cbn [mbind option_bind]. destruct (mapM _ (g_rls g)) as [x|]; [|done]. cbn [mbind option_bind]. destruct (mapM _ (g_cls g)) as [y|]; [|done]. cbn [mbind option_bind k_fcls].
  rewrite H1. replace (S (length (denses pieces)) - length (denses pieces)) with 1 by lia. by rewrite mapM_not_full.
Qed.
End props.

(** * Examples: numbers are lengths of texts, a layer is its numbers *)
Definition txt (s : string) : list ascii := String.list_ascii_of_string s.
Definition nums (n : nat) (s : string) : list (list ascii) := replicate n (txt s).
Definition keep (l : list nat) : option (list nat) := Some l.
Definition int_of_nat (n : nat) : option Z := Some (Z.of_nat n).
(** a convolutional layer, a block of two layers with number 2, a block of one with number 1, a fully-connected layer *)
Definition ex_parts : list part := [Conv (nums 24 "1"); Block [nums 24 "22" ++ [txt "333"; txt "22"]; nums 24 "22" ++ [txt "1"; txt "22"]]; Block [nums 24 "1" ++ [txt "4444"; txt "1"]]; Dense (nums 11 "333")].
Definition ex_header : list (list ascii) := [full_name; conv_name; rconv_name; rconv_name; rconv_name; res_name; res_name].
Definition ex_pieces : list (piece (list nat) (list nat)) := [PConv (replicate 24 1); PBlock 3 2 [replicate 24 2; replicate 24 2]; PBlock 4 1 [replicate 24 1]; PDense (replicate 11 3)].
Lemma field_txt s : (length (txt s) <=? 255) && forallb (fun c => negb (bool_decide (c = semi \/ c = newline \/ c = NUL))) (txt s) = true -> field (txt s).
Proof.
  intros [H1 H2]%andb_true_iff. apply Nat.leb_le in H1. rewrite forallb_forall in H2.
  assert (H : forall c, c = semi \/ c = newline \/ c = NUL -> c ∉ txt s). { intros c Hc Hin. apply elem_of_list_In in Hin. apply H2 in Hin. rewrite bool_decide_true in Hin by done. done. }
  split; [done|]. split; [apply H; tauto|]. split; apply H; tauto.
Qed.
Lemma nums_field n s : field (txt s) -> Forall field (nums n s).
Proof. intros. by apply Forall_replicate. Qed.
Example ex_means : Forall2 (means length keep keep int_of_nat) ex_parts ex_pieces.
Proof.
  unfold ex_parts, ex_pieces. repeat apply Forall2_cons_2; [..|constructor].
  - apply means_conv; [|reflexivity]. split; [apply nums_field, field_txt; reflexivity|cbn; lia].
  - apply means_block; [exists (txt "333"); split; reflexivity|]. repeat apply Forall2_cons_2; [..|constructor].
    + split; [split; [|cbn; lia]|]. { apply list.Forall_app; split; [apply nums_field, field_txt; reflexivity|]. repeat constructor; apply field_txt; reflexivity. }
      split; [reflexivity|]. split; [exists (txt "22"); split; reflexivity|]. exists 3%Z, (txt "333"). split; reflexivity.
    + split; [split; [|cbn; lia]|]. { apply list.Forall_app; split; [apply nums_field, field_txt; reflexivity|]. repeat constructor; apply field_txt; reflexivity. }
      split; [reflexivity|]. split; [exists (txt "22"); split; reflexivity|]. exists 1%Z, (txt "1"). split; reflexivity.
  - apply means_block; [exists (txt "4444"); split; reflexivity|]. repeat apply Forall2_cons_2; [..|constructor].
    split; [split; [|cbn; lia]|]. { apply list.Forall_app; split; [apply nums_field, field_txt; reflexivity|]. repeat constructor; apply field_txt; reflexivity. }
    split; [reflexivity|]. split; [exists (txt "1"); split; reflexivity|]. exists 4%Z, (txt "4444"). split; reflexivity.
  - apply means_dense; [|reflexivity]. split; [apply nums_field, field_txt; reflexivity|cbn; lia].
Qed.
Example ex_header_counts : Forall field ex_header /\ apart None ex_pieces /\ occurrences full_name ex_header = 1 /\ occurrences conv_name ex_header = 1 /\
  occurrences rconv_name ex_header = in_blocks ex_pieces /\ occurrences res_name ex_header = 2 /\ in_blocks ex_pieces = 3.
Proof. split; [repeat constructor; try (cbn; lia); cbn; set_solver|]. cbn. split; [|done]. split; [done|]. split; [|done]. congruence. Qed.
Example ex_parsed : parse_text length keep keep int_of_nat (description ex_header ex_parts)
  = Some (5, [(3%Z, [replicate 24 2; replicate 24 2]); (4%Z, [replicate 24 1])], [replicate 24 1], [replicate 11 3]).
Proof. vm_compute. reflexivity. Qed.
(** two adjacent blocks with the same number are one block: apart is needed *)
Example ex_merged : parse_text length keep keep int_of_nat (description [rconv_name; rconv_name; res_name] [Block [nums 24 "1" ++ [txt "1"; txt "1"]]; Block [nums 24 "22" ++ [txt "22"; txt "1"]]])
  = Some (2, [(1%Z, [replicate 24 1; replicate 24 2])], [], []).
Proof. vm_compute. reflexivity. Qed.
Example ex_short : parse_text length keep keep int_of_nat (description [full_name; full_name] [Dense (nums 11 "1"); Dense (nums 3 "22")])
  = Some (2, [], [], [replicate 11 1; [2; 2; 2; 1; 1; 1; 1; 1; 1; 1; 1]]).
Proof. vm_compute. reflexivity. Qed.
(** a short first line reads numbers that were never written *)
Example ex_first_short : parse_text length keep keep int_of_nat (description [full_name] [Dense (nums 3 "22")]) = None.
Proof. vm_compute. reflexivity. Qed.
(** a name without a semicolon is compared together with what is left of the name before it *)
Example ex_name_without_semicolon : parse_text length keep keep int_of_nat (line [conv_name; full_name] ++ [newline] ++ conv_name ++ [newline] ++ line (nums 24 "1") ++ [newline] ++ layer_text full_name (nums 11 "1")) = None /\
  parse_text length keep keep int_of_nat (line [full_name; conv_name] ++ [newline] ++ conv_name ++ [newline] ++ line (nums 24 "1") ++ [newline] ++ layer_text full_name (nums 11 "1")) = Some (2, [], [replicate 24 1], [replicate 11 1]).
Proof. split; vm_compute; reflexivity. Qed.
Example ex_documented : parse_text length keep keep int_of_nat (line [txt "1"; txt "0"; txt "0"; txt "0"] ++ [newline] ++ layer_text full_name (nums 11 "1")) = None.
Proof. vm_compute. reflexivity. Qed.

Print Assumptions description_is_parsed.
Print Assumptions missing_description.
Print Assumptions short_line_reuses_refuted.
Print Assumptions documented_header_refuted.
Print Assumptions missing_newline_refuted.
