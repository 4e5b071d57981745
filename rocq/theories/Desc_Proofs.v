(** Proofs about the parsers of model descriptions: reading the text. *)
From Verif Require Import Desc_Model Desc_Spec Parse_Spec Parse_Proofs BaseLemmas.
Open Scope nat_scope.

Lemma same_string_spec lit f rest : NUL ∉ lit -> NUL ∉ f -> same_string lit ((Some <$> f) ++ Some NUL :: rest) = Some (bool_decide (f = lit)).
Proof.
  revert f. induction lit as [|x lit IH]; intros f Hl Hf; destruct f as [|c f]; cbn.
  - done.
  - f_equal. apply bool_decide_ext. split; [intros ->; exfalso; apply Hf, elem_of_list_here|done].
  - rewrite decide_False; [done|]. intros ->. apply Hl, elem_of_list_here.
  - assert (Hl' : NUL ∉ lit) by (intros ?; apply Hl; by apply elem_of_list_further). assert (Hf' : NUL ∉ f) by (intros ?; apply Hf; by apply elem_of_list_further).
    case_decide as E; [subst; rewrite IH by done; f_equal; apply bool_decide_ext; split; [by intros ->|by intros [= ->]]|].
    f_equal. symmetry. apply bool_decide_eq_false. intros [= -> _]. done.
Qed.
Lemma text_of_spec f rest : NUL ∉ f -> text_of ((Some <$> f) ++ Some NUL :: rest) = Some f.
Proof.
  induction f as [|c f IH]; intros Hf; cbn; [done|]. rewrite decide_False by (intros ->; apply Hf, elem_of_list_here).
  rewrite IH by (intros ?; apply Hf; by apply elem_of_list_further). done.
Qed.
Lemma names_field : field conv_name /\ field full_name /\ field rconv_name /\ field res_name.
Proof. repeat split; try (cbn; lia); cbn; set_solver. Qed.
Lemma names_nul : NUL ∉ conv_name /\ NUL ∉ full_name /\ NUL ∉ rconv_name /\ NUL ∉ res_name.
Proof. repeat split; cbn; set_solver. Qed.

Lemma filled_nil {A} (l : list A) : filled [] l = l.
Proof. done. Qed.
Lemma filled_length {A} (v l : list A) : length v <= length l -> length (filled v l) = length l.
Proof. intros. unfold filled. rewrite app_length, drop_length. lia. Qed.
Lemma filled_snoc {A} (v l : list A) x : length v < length l -> wr (filled v l) (length v) x = Some (filled (v ++ [x]) l).
Proof.
  intros H. rewrite wr_Some by (rewrite filled_length; lia). f_equal. unfold filled. rewrite insert_app_r_alt by lia. rewrite Nat.sub_diag, <- app_assoc. f_equal.
  rewrite app_length. cbn. destruct (lookup_lt_is_Some_2 l (length v) H) as [y Hy]. rewrite (drop_S l y) by done. cbn. by rewrite Nat.add_1_r.
Qed.
(** writing the next free cell of an array *)
Definition part_full {A} (l : list A) (m : nat) : list (option A) := (Some <$> l) ++ replicate m None.
Lemma wr_push {A} (l : list A) m x : wr (part_full l (S m)) (length l) (Some x) = Some (part_full (l ++ [x]) m).
Proof.
  unfold part_full. rewrite wr_Some by (rewrite app_length, fmap_length, replicate_length; lia). f_equal. rewrite insert_app_r_alt by (by rewrite fmap_length).
  rewrite fmap_length, Nat.sub_diag. rewrite fmap_app, <- app_assoc. done.
Qed.
Lemma mapM_full {A} (l : list A) : mapM (fun x : option A => x) (part_full l 0) = Some l.
Proof. unfold part_full. cbn. rewrite app_nil_r. induction l as [|a l IH]; [done|]. cbn. by rewrite IH. Qed.
Lemma part_full_lookup {A} (l : list A) m i x : l !! i = Some x -> part_full l m !! i = Some (Some x).
Proof. intros H. unfold part_full. rewrite lookup_app_l by (rewrite fmap_length; by eapply lookup_lt_Some). by rewrite list_lookup_fmap, H. Qed.

Section desc.
Context {F L C : Type} (atof : list ascii -> F) (mk_fcl : list F -> option L) (mk_cl : list F -> option C) (toint : F -> option Z).
Notation core := (@core F L C).
Notation read := (char_read (F := F) atof mk_fcl mk_cl toint).

(** * Fields *)
Lemma read_chars f (done : list ascii) buf (k : core) : semi ∉ f -> newline ∉ f -> length buf = 256 -> length done + length f <= 256 ->
  run read f (filled (Some <$> done) buf, length done, k) = Some (filled (Some <$> done ++ f) buf, length (done ++ f), k).
Proof.
  revert done. induction f as [|c f IH]; intros done0 Hs Hn Hb Hl; [cbn; by rewrite app_nil_r|]. cbn [run char_read]. cbn in Hl.
  rewrite decide_True by (split; intros ->; [apply Hs, elem_of_list_here|apply Hn, elem_of_list_here]).
  pose proof (filled_snoc (Some <$> done0) buf (Some c)) as Hw. rewrite fmap_length in Hw. rewrite Hw by lia. cbn [mbind option_bind].
  replace ((Some <$> done0) ++ [Some c]) with (Some <$> done0 ++ [c]) by (by rewrite fmap_app).
  replace (S (length done0)) with (length (done0 ++ [c])) by (rewrite app_length; cbn; lia). rewrite IH; [by rewrite <- app_assoc| | |done|rewrite app_length; cbn; lia];
    intros ?; [apply Hs|apply Hn]; by apply elem_of_list_further.
Qed.
(** the buffer after a field *)
Definition after (f : list ascii) (buf : list (option ascii)) : list (option ascii) := (Some <$> f) ++ Some NUL :: drop (S (length f)) buf.
Lemma after_length f buf : length f <= 255 -> length buf = 256 -> length (after f buf) = 256.
Proof. intros. unfold after. rewrite app_length, fmap_length. cbn. rewrite drop_length. lia. Qed.
Lemma same_string_after lit f buf : NUL ∉ lit -> NUL ∉ f -> same_string lit (after f buf) = Some (bool_decide (f = lit)).
Proof. apply same_string_spec. Qed.
Lemma text_of_after f buf : NUL ∉ f -> text_of (after f buf) = Some f.
Proof. apply text_of_spec. Qed.
Lemma read_field f buf (k : core) : field f -> length buf = 256 ->
  run read (f ++ [semi]) (buf, 0, k) = k ← on_field atof (after f buf) k; Some (after f buf, 0, k).
Proof.
  intros (Hl & Hs & Hn & H0) Hb. rewrite run_app. pose proof (read_chars f [] buf k Hs Hn Hb) as H. cbn [length app fmap list_fmap] in H. unfold filled in H at 1. cbn in H. rewrite drop_0 in H.
  rewrite H by lia. cbn [mbind option_bind run char_read]. rewrite decide_False by (by intros [? _]). rewrite decide_True by done.
  pose proof (filled_snoc (Some <$> f) buf (Some NUL)) as Hw. rewrite fmap_length in Hw. rewrite Hw by lia. cbn [mbind option_bind].
  assert (E : filled ((Some <$> f) ++ [Some NUL]) buf = after f buf).
  { unfold filled, after. rewrite <- app_assoc, app_length, fmap_length. cbn. do 3 f_equal. lia. }
  rewrite E. destruct (on_field atof (after f buf) k); done.
Qed.
Lemma read_newline buf n (k : core) : run read [newline] (buf, n, k) = k ← on_newline mk_fcl mk_cl toint buf k; Some (buf, 0, k).
Proof. cbn [run char_read]. rewrite decide_False by (by intros [_ ?]). rewrite decide_False by done. destruct (on_newline _ _ _ buf k); done. Qed.

(** * The line of names *)
Lemma read_header header (buf : list (option ascii)) fs i fl nf nc nt nr fcls cls kd ac bl cf cc : Forall field header -> length buf = 256 -> exists buf',
  run read (line header) (buf, 0, Core fs i fl false nf nc nt nr fcls cls kd ac bl cf cc : core)
    = Some (buf', 0, Core fs i fl false (nf + occurrences full_name header) (nc + occurrences conv_name header)
        (nt + occurrences conv_name header + occurrences rconv_name header) (nr + occurrences res_name header) fcls cls kd ac bl cf cc)
  /\ length buf' = 256.
Proof.
  intros Hf. revert buf nf nc nt nr. induction Hf as [|f header Hf1 Hf IH]; intros buf nf nc nt nr Hb.
  - exists buf. split; [|done]. cbn. by rewrite !Nat.add_0_r.
  - unfold line. rewrite fmap_cons. change (mjoin (?a :: ?b)) with (a ++ mjoin b). rewrite run_app. change (mjoin _) with (line header).
    rewrite read_field by done. destruct Hf1 as (Hl & Hs & Hn & H0). destruct names_nul as (N1 & N2 & N3 & N4).
    cbn [on_field]. rewrite !same_string_after by done. cbn [mbind option_bind].
    assert (Ho : forall name, occurrences name (f :: header) = (if bool_decide (f = name) then 1 else 0) + occurrences name header).
    { intros name. unfold occurrences. rewrite filter_cons. case_decide as E; [rewrite bool_decide_true by done|rewrite bool_decide_false by done]; done. }
    rewrite !Ho. assert (Hb' : length (after f buf) = 256) by (by apply after_length). clear Ho.
    destruct (bool_decide_reflect (f = conv_name)) as [->|E1].
    { rewrite (bool_decide_false (conv_name = full_name)), (bool_decide_false (conv_name = rconv_name)), (bool_decide_false (conv_name = res_name)) by discriminate. cbn [mbind option_bind].
      destruct (IH (after conv_name buf) nf (S nc) (S nt) nr Hb') as (b' & E & Hb''). exists b'. split; [|done].
      rewrite E. do 3 f_equal; lia. }
    destruct (bool_decide_reflect (f = full_name)) as [->|E2].
    { rewrite (bool_decide_false (full_name = rconv_name)), (bool_decide_false (full_name = res_name)) by discriminate. cbn [mbind option_bind].
      destruct (IH (after full_name buf) (S nf) nc nt nr Hb') as (b' & E & Hb''). exists b'. split; [|done].
      rewrite E. do 3 f_equal; lia. }
    destruct (bool_decide_reflect (f = rconv_name)) as [->|E3].
    { rewrite (bool_decide_false (rconv_name = res_name)) by discriminate. cbn [mbind option_bind].
      destruct (IH (after rconv_name buf) nf nc (S nt) nr Hb') as (b' & E & Hb''). exists b'. split; [|done].
      rewrite E. do 3 f_equal; lia. }
    destruct (bool_decide_reflect (f = res_name)) as [->|E4]; cbn [mbind option_bind].
    { destruct (IH (after res_name buf) nf nc nt (S nr) Hb') as (b' & E & Hb''). exists b'. split; [|done].
      rewrite E. do 3 f_equal; lia. }
    destruct (IH (after f buf) nf nc nt nr Hb') as (b' & E & Hb''). exists b'. split; [|done]. rewrite E. do 3 f_equal; lia.
Qed.

(** * A line of numbers *)
Lemma read_numbers p (v : list F) buf fs fl nf nc nt nr fcls cls kd ac bl cf cc : Forall field p -> length buf = 256 -> length fs = 256 -> length v + length p <= 256 -> exists buf',
  run read (line p) (buf, 0, Core (filled (Some <$> v) fs) (length v) fl true nf nc nt nr fcls cls kd ac bl cf cc : core)
    = Some (buf', 0, Core (filled (Some <$> v ++ (atof <$> p)) fs) (length v + length p) fl true nf nc nt nr fcls cls kd ac bl cf cc) /\ length buf' = 256.
Proof.
  intros Hf. revert buf v. induction Hf as [|f p Hf1 Hf IH]; intros buf v Hb Hfs Hl.
  - exists buf. split; [|done]. cbn. by rewrite app_nil_r, Nat.add_0_r.
  - unfold line. rewrite fmap_cons. change (mjoin (?a :: ?b)) with (a ++ mjoin b). rewrite run_app. change (mjoin _) with (line p).
    rewrite read_field by done. destruct Hf1 as (Hlf & Hs & Hn & H0). cbn [on_field]. rewrite text_of_after by done. cbn [mbind option_bind]. cbn in Hl.
    pose proof (filled_snoc (Some <$> v) fs (Some (atof f))) as Hw. rewrite fmap_length in Hw. rewrite Hw by lia. cbn [mbind option_bind].
    destruct (IH (after f buf) (v ++ [atof f])) as (b' & E & Hb'); [by apply after_length|done|rewrite app_length; cbn; lia|].
    exists b'. split; [|done]. rewrite fmap_app, app_length in E. cbn [length fmap list_fmap] in E. rewrite Nat.add_1_r in E. rewrite E. rewrite <- app_assoc. cbn. do 3 f_equal. lia.
Qed.
Lemma numbers_filled n (v : list F) fs : n <= length v -> numbers n (filled (Some <$> v) fs) = Some (take n v).
Proof.
  intros H. unfold numbers. replace n with (length (take n v)) at 1 by (rewrite take_length; lia). apply mapM_seq. intros i x Hx.
  assert (i < n) by (apply lookup_lt_Some in Hx; rewrite take_length in Hx; lia). rewrite lookup_take in Hx by done.
  unfold rd, filled. rewrite lookup_app_l by (rewrite fmap_length; lia). rewrite list_lookup_fmap, Hx. done.
Qed.
Lemma int_at_filled p fs i z : int_of atof toint p i z -> int_at toint (filled (Some <$> (atof <$> p)) fs) i = Some z.
Proof.
  intros (f & Hp & Hz). unfold int_at, rd, filled. rewrite lookup_app_l by (rewrite !fmap_length; by eapply lookup_lt_Some). rewrite !list_lookup_fmap, Hp. cbn. done.
Qed.

(** * The two lines of a layer *)
Lemma read_layer name fl' kd' p buf fs fl nf nc nt nr fcls cls kd ac bl cf cc :
  fl = 0 -> field name -> params 0 p -> length buf = 256 -> length fs = 256 ->
  (forall b2 fs, on_newline mk_fcl mk_cl toint (after name b2) (Core fs 1 0 true nf nc nt nr fcls cls kd ac bl cf cc : core) = Some (Core fs 0 fl' true nf nc nt nr fcls cls kd' ac bl cf cc)) ->
  exists buf', let fs' := filled [Some (atof name)] fs in length buf' = 256 /\ length fs' = 256 /\
  run read (layer_text name p) (buf, 0, Core fs 0 fl true nf nc nt nr fcls cls kd ac bl cf cc : core)
    = k ← on_newline mk_fcl mk_cl toint buf' (Core (filled (Some <$> (atof <$> p)) fs') (length p) fl' true nf nc nt nr fcls cls kd' ac bl cf cc); Some (buf', 0, k).
Proof.
  intros -> Hn [Hp Hlp] Hb Hfs Hon. unfold layer_text. rewrite run_app. destruct (read_numbers [name] [] buf fs 0 nf nc nt nr fcls cls kd ac bl cf cc) as (b1 & E1 & Hb1); [by constructor|done|done|cbn; lia|].
  cbn [length fmap list_fmap app] in E1. rewrite filled_nil in E1.
  assert (Hb1' : b1 = after name buf).
  { unfold line in E1. cbn [fmap list_fmap mjoin list_join] in E1. rewrite app_nil_r in E1. rewrite read_field in E1 by done.
    destruct (on_field atof (after name buf) _) as [k|]; [|done]. cbn in E1. congruence. }
  rewrite E1. cbn [mbind option_bind]. rewrite run_app, read_newline. subst b1. cbn [Nat.add] in *. rewrite Hon. cbn [mbind option_bind].
  assert (Hfs1 : length (filled [Some (atof name)] fs) = 256) by (rewrite filled_length; [done|cbn; lia]).
  destruct (read_numbers p [] (after name buf) (filled [Some (atof name)] fs) fl' nf nc nt nr fcls cls kd' ac bl cf cc) as (b2 & E2 & Hb2); [done|done|done|cbn; lia|].
  cbn [length fmap list_fmap app] in E2. rewrite filled_nil in E2. cbn [Nat.add] in E2. rewrite run_app, E2. cbn [mbind option_bind]. rewrite read_newline.
  exists b2. split; [done|]. split; [done|]. done.
Qed.
(** the line of the name and the numbers, without the newline of the numbers *)
Lemma read_open name fl' kd' p buf fs nf nc nt nr fcls cls kd ac bl cf cc :
  field name -> params 0 p -> length buf = 256 -> length fs = 256 ->
  (forall b2 fs, on_newline mk_fcl mk_cl toint (after name b2) (Core fs 1 0 true nf nc nt nr fcls cls kd ac bl cf cc : core) = Some (Core fs 0 fl' true nf nc nt nr fcls cls kd' ac bl cf cc)) ->
  exists buf' fs', run read (line [name] ++ [newline] ++ line p) (buf, 0, Core fs 0 0 true nf nc nt nr fcls cls kd ac bl cf cc : core)
    = Some (buf', 0, Core fs' (length p) fl' true nf nc nt nr fcls cls kd' ac bl cf cc).
Proof.
  intros Hn [Hp Hlp] Hb Hfs Hon. rewrite run_app. assert (Hl1 : line [name] = name ++ [semi]) by (unfold line; cbn [fmap list_fmap mjoin list_join]; by rewrite app_nil_r).
  rewrite Hl1, read_field by done. cbn [on_field].
  destruct Hn as (N1 & N2 & N3 & N4). rewrite text_of_after by done. cbn [mbind option_bind]. rewrite wr_Some by lia. cbn [mbind option_bind]. rewrite run_app, read_newline, Hon. cbn [mbind option_bind].
  assert (Hfs1 : length (<[0 := Some (atof name)]> fs) = 256) by (by rewrite insert_length).
  destruct (read_numbers p [] (after name buf) (<[0 := Some (atof name)]> fs) fl' nf nc nt nr fcls cls kd' ac bl cf cc) as (b2 & E2 & Hb2); [done|by apply after_length|done|cbn; lia|].
  cbn [length fmap list_fmap app] in E2. rewrite filled_nil in E2. cbn [Nat.add] in E2. rewrite E2. eauto.
Qed.
End desc.
