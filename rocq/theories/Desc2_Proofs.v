(** Proofs about the parsers of model descriptions: the whole text, and the blocks. *)
From Verif Require Import Desc_Model Desc_Spec Parse_Spec Parse_Proofs Desc_Proofs BaseLemmas.
Open Scope nat_scope.

Definition olist {A} (o : option A) : list A := match o with Some x => [x] | None => [] end.

Section desc.
Context {F L C : Type} (atof : list ascii -> F) (mk_fcl : list F -> option L) (mk_cl : list F -> option C) (toint : F -> option Z).
Notation core := (@core F L C).
Notation read := (char_read (F := F) atof mk_fcl mk_cl toint).
(** the convolutional layers in the order of the text; those of blocks with the number of their block, the first one also with its activation *)
Notation mark := (option (option Z * Z)).
Definition piece_flat (x : piece L C) : list (C * mark) :=
  match x with
  | PDense _ => []
  | PConv c => [(c, None)]
  | PBlock act id [] => []
  | PBlock act id (c :: cs) => (c, Some (Some act, id)) :: ((fun c => (c, Some (None, id))) <$> cs)
  end.
Definition flat (xs : list (piece L C)) : list (C * mark) := mjoin (piece_flat <$> xs).
Definition marked (m : mark) (kd : option nat) (ac bl : option Z) : Prop :=
  match m with None => kd = Some 1 | Some (oa, id) => kd = Some 3 /\ bl = Some id /\ match oa with Some a => ac = Some a | None => True end end.
Record inv (nf nc nt nr : nat) (ds : list L) (fl : list (C * mark)) (k : core) : Prop := Inv {
  i_floats : length (k_floats k) = 256; i_int : k_int k = 0; i_flag : k_flag k = 0; i_body : k_body k = true;
  i_nf : k_nf k = nf; i_nc : k_nc k = nc; i_nt : k_nt k = nt; i_nr : k_nr k = nr;
  i_fcls : k_fcls k = part_full ds (nf - length ds); i_cls : k_cls k = part_full fl.*1 (nt - length fl);
  i_kind : length (k_kind k) = 1024; i_act : length (k_act k) = 1024; i_block : length (k_block k) = 1024;
  i_cf : k_cf k = length ds; i_cc : k_cc k = length fl;
  i_marks : forall i x, fl !! i = Some x -> exists kd ac bl, k_kind k !! i = Some kd /\ k_act k !! i = Some ac /\ k_block k !! i = Some bl /\ marked x.2 kd ac bl }.

Lemma params_weaken n p : params n p -> params 0 p.
Proof. intros [H1 H2]. split; [done|lia]. Qed.
Lemma on_name_full b2 fs i nf nc nt nr fcls cls kd ac bl cf cc :
  on_newline mk_fcl mk_cl toint (after full_name b2) (Core fs i 0 true nf nc nt nr fcls cls kd ac bl cf cc : core) = Some (Core fs 0 2 true nf nc nt nr fcls cls kd ac bl cf cc).
Proof.
  destruct names_nul as (N1 & N2 & N3 & N4). cbn [on_newline]. rewrite !same_string_after by done. cbn [mbind option_bind].
  rewrite (bool_decide_false (full_name = conv_name)) by discriminate. rewrite (bool_decide_true (full_name = full_name)) by done. done.
Qed.
Lemma on_name_conv b2 fs i nf nc nt nr fcls cls kd ac bl cf cc : cc < length kd ->
  on_newline mk_fcl mk_cl toint (after conv_name b2) (Core fs i 0 true nf nc nt nr fcls cls kd ac bl cf cc : core) = Some (Core fs 0 1 true nf nc nt nr fcls cls (<[cc := Some 1]> kd) ac bl cf cc).
Proof.
  intros H. destruct names_nul as (N1 & N2 & N3 & N4). cbn [on_newline]. rewrite !same_string_after by done. cbn [mbind option_bind].
  rewrite (bool_decide_true (conv_name = conv_name)) by done. rewrite wr_Some by done. done.
Qed.
Lemma on_name_rconv b2 fs i nf nc nt nr fcls cls kd ac bl cf cc : cc < length kd ->
  on_newline mk_fcl mk_cl toint (after rconv_name b2) (Core fs i 0 true nf nc nt nr fcls cls kd ac bl cf cc : core) = Some (Core fs 0 3 true nf nc nt nr fcls cls (<[cc := Some 3]> kd) ac bl cf cc).
Proof.
  intros H. destruct names_nul as (N1 & N2 & N3 & N4). cbn [on_newline]. rewrite !same_string_after by done. cbn [mbind option_bind].
  rewrite (bool_decide_false (rconv_name = conv_name)) by discriminate. rewrite (bool_decide_false (rconv_name = full_name)) by discriminate.
  rewrite (bool_decide_true (rconv_name = rconv_name)) by done. rewrite wr_Some by done. done.
Qed.

Lemma read_dense nf nc nt nr ds fl k buf p l : inv nf nc nt nr ds fl k -> length buf = 256 -> length ds < nf -> params 11 p -> mk_fcl (atof <$> take 11 p) = Some l ->
  exists buf' k', run read (layer_text full_name p) (buf, 0, k) = Some (buf', 0, k') /\ length buf' = 256 /\ inv nf nc nt nr (ds ++ [l]) fl k'.
Proof.
  intros [] Hb Hcap Hp Hl. destruct k as [fs ki kf kb knf knc knt knr fcls cls kd ac bl cf cc]. cbn [k_floats k_int k_flag k_body k_nf k_nc k_nt k_nr k_fcls k_cls k_kind k_act k_block k_cf k_cc] in *. subst.
  destruct (read_layer atof mk_fcl mk_cl toint full_name 2 kd p buf fs 0 nf nc nt nr (part_full ds (nf - length ds)) (part_full fl.*1 (nt - length fl)) kd ac bl (length ds) (length fl)) as (b' & Hb' & Hfs' & E);
    [done|apply names_field|by eapply params_weaken|done|done|intros; apply on_name_full|].
  rewrite E. set (fs' := filled [Some _] fs) in *. clearbody fs'. cbn [on_newline]. destruct Hp as [Hpf Hpl]. rewrite numbers_filled by (rewrite fmap_length; lia). cbn [mbind option_bind]. rewrite <- fmap_take, Hl. cbn [mbind option_bind].
  replace (nf - length ds) with (S (nf - length (ds ++ [l]))) by (rewrite app_length; cbn; lia). rewrite wr_push. cbn [mbind option_bind].
  eexists _, _. split; [reflexivity|]. split; [done|]. constructor; cbn; try done; [rewrite filled_length; [done|rewrite !fmap_length; lia]|rewrite app_length; cbn; lia].
Qed.
Lemma marks_insert (fl : list (C * mark)) x kd ac bl kd' ac' bl' (K : nat) (A B : Z) :
  (forall i x, fl !! i = Some x -> exists kd1 ac1 bl1, kd !! i = Some kd1 /\ ac !! i = Some ac1 /\ bl !! i = Some bl1 /\ marked x.2 kd1 ac1 bl1) ->
  length kd = 1024 -> length ac = 1024 -> length bl = 1024 -> length fl < 1024 ->
  kd' = <[length fl := Some K]> kd -> (ac' = ac \/ ac' = <[length fl := Some A]> ac) -> (bl' = bl \/ bl' = <[length fl := Some B]> bl) ->
  (forall a b, ac' !! length fl = Some a -> bl' !! length fl = Some b -> marked x.2 (Some K) a b) ->
  forall i y, (fl ++ [x]) !! i = Some y -> exists kd1 ac1 bl1, kd' !! i = Some kd1 /\ ac' !! i = Some ac1 /\ bl' !! i = Some bl1 /\ marked y.2 kd1 ac1 bl1.
Proof.
  intros H Hk Ha Hb Hn -> Ea Eb Hx i y Hi. apply lookup_app_Some in Hi as [Hi|[Hi1 Hi2]].
  - assert (i <> length fl) by (apply lookup_lt_Some in Hi; lia). destruct (H i y Hi) as (kd1 & ac1 & bl1 & H1 & H2 & H3 & H4). exists kd1, ac1, bl1.
    rewrite list_lookup_insert_ne by done. split; [done|]. split; [destruct Ea as [->| ->]; [done|by rewrite list_lookup_insert_ne]|].
    split; [destruct Eb as [->| ->]; [done|by rewrite list_lookup_insert_ne]|done].
  - apply list_lookup_singleton_Some in Hi2 as [Hi2 <-]. assert (i = length fl) as -> by lia.
    assert (Ha' : length ac' = 1024) by (destruct Ea as [->| ->]; [done|by rewrite insert_length]). assert (Hb' : length bl' = 1024) by (destruct Eb as [->| ->]; [done|by rewrite insert_length]).
    destruct (lookup_lt_is_Some_2 ac' (length fl)) as [a Ea']; [lia|]. destruct (lookup_lt_is_Some_2 bl' (length fl)) as [b Eb']; [lia|].
    exists (Some K), a, b. split; [apply list_lookup_insert; lia|]. split; [done|]. split; [done|]. by apply Hx.
Qed.
Lemma read_conv nf nc nt nr ds fl k buf p c : inv nf nc nt nr ds fl k -> length buf = 256 -> length fl < nt -> length fl < 1024 -> params 24 p -> mk_cl (atof <$> take 24 p) = Some c ->
  exists buf' k', run read (layer_text conv_name p) (buf, 0, k) = Some (buf', 0, k') /\ length buf' = 256 /\ inv nf nc nt nr ds (fl ++ [(c, None)]) k'.
Proof.
  intros [] Hb Hcap Hcap2 Hp Hl. destruct k as [fs ki kf kb knf knc knt knr fcls cls kd ac bl cf cc]. cbn [k_floats k_int k_flag k_body k_nf k_nc k_nt k_nr k_fcls k_cls k_kind k_act k_block k_cf k_cc] in *. subst.
  destruct (read_layer atof mk_fcl mk_cl toint conv_name 1 (<[length fl := Some 1]> kd) p buf fs 0 nf nc nt nr (part_full ds (nf - length ds)) (part_full fl.*1 (nt - length fl)) kd ac bl (length ds) (length fl)) as (b' & Hb' & Hfs' & E);
    [done|apply names_field|by eapply params_weaken|done|done|intros; apply on_name_conv; lia|].
  rewrite E. set (fs' := filled [Some _] fs) in *. clearbody fs'. cbn [on_newline]. destruct Hp as [Hpf Hpl]. rewrite numbers_filled by (rewrite fmap_length; lia). cbn [mbind option_bind]. rewrite <- fmap_take, Hl. cbn [mbind option_bind].
  replace (nt - length fl) with (S (nt - length (fl ++ [(c, None : mark)]))) by (rewrite app_length; cbn; lia).
  pose proof (wr_push fl.*1 (nt - length (fl ++ [(c, None : mark)])) c) as Hw. rewrite fmap_length in Hw. rewrite Hw. cbn [mbind option_bind].
  eexists _, _. split; [reflexivity|]. split; [done|]. constructor; cbn; try done.
  - rewrite filled_length; [done|rewrite !fmap_length; lia].
  - by rewrite fmap_app.
  - by rewrite insert_length.
  - rewrite app_length. cbn. lia.
  - eapply (marks_insert fl (c, None) kd ac bl _ _ _ 1 0%Z 0%Z); try done; by left.
Qed.
Lemma read_rconv nf nc nt nr ds fl k buf p c oa a id : inv nf nc nt nr ds fl k -> length buf = 256 -> length fl < nt -> length fl < 1024 -> params 26 p -> mk_cl (atof <$> take 24 p) = Some c ->
  int_of atof toint p 24 a -> int_of atof toint p 25 id -> (oa = None \/ oa = Some a) ->
  exists buf' k', run read (layer_text rconv_name p) (buf, 0, k) = Some (buf', 0, k') /\ length buf' = 256 /\ inv nf nc nt nr ds (fl ++ [(c, Some (oa, id))]) k'.
Proof.
  intros [] Hb Hcap Hcap2 Hp Hl Ha Hid Hoa. destruct k as [fs ki kf kb knf knc knt knr fcls cls kd ac bl cf cc]. cbn [k_floats k_int k_flag k_body k_nf k_nc k_nt k_nr k_fcls k_cls k_kind k_act k_block k_cf k_cc] in *. subst.
  destruct (read_layer atof mk_fcl mk_cl toint rconv_name 3 (<[length fl := Some 3]> kd) p buf fs 0 nf nc nt nr (part_full ds (nf - length ds)) (part_full fl.*1 (nt - length fl)) kd ac bl (length ds) (length fl)) as (b' & Hb' & Hfs' & E);
    [done|apply names_field|by eapply params_weaken|done|done|intros; apply on_name_rconv; lia|].
  rewrite E. set (fs' := filled [Some _] fs) in *. clearbody fs'. cbn [on_newline]. destruct Hp as [Hpf Hpl]. rewrite numbers_filled by (rewrite fmap_length; lia). cbn [mbind option_bind]. rewrite <- fmap_take, Hl. cbn [mbind option_bind].
  replace (nt - length fl) with (S (nt - length (fl ++ [(c, Some (oa, id) : mark)]))) by (rewrite app_length; cbn; lia).
  pose proof (wr_push fl.*1 (nt - length (fl ++ [(c, Some (oa, id) : mark)])) c) as Hw. rewrite fmap_length in Hw. rewrite Hw. cbn [mbind option_bind].
  rewrite (int_at_filled atof toint p _ 24 a) by done. cbn [mbind option_bind]. rewrite wr_Some by lia. cbn [mbind option_bind].
  rewrite (int_at_filled atof toint p _ 25 id) by done. cbn [mbind option_bind]. rewrite wr_Some by lia. cbn [mbind option_bind].
  eexists _, _. split; [reflexivity|]. split; [done|]. constructor; cbn; try done.
  - rewrite filled_length; [done|rewrite !fmap_length; lia].
  - by rewrite fmap_app.
  - by rewrite insert_length.
  - by rewrite insert_length.
  - by rewrite insert_length.
  - rewrite app_length. cbn. lia.
  - eapply (marks_insert fl (c, Some (oa, id)) kd ac bl _ _ _ 3 a id); try done; [by right|by right|].
    intros a' b'' H1 H2. rewrite list_lookup_insert in H1, H2 by lia. apply (inj Some) in H1, H2. subst. cbn. split; [done|]. split; [done|]. destruct Hoa as [->| ->]; done.
Qed.

(** * The body *)
Lemma flat_cons x xs : flat (x :: xs) = piece_flat x ++ flat xs.
Proof. done. Qed.
Lemma read_others nf nc nt nr ds id ps cs fl k buf : inv nf nc nt nr ds fl k -> length buf = 256 -> length fl + length cs <= nt -> length fl + length cs <= 1024 ->
  Forall2 (fun q d => params 26 q /\ mk_cl (atof <$> take 24 q) = Some d /\ int_of atof toint q 25 id /\ exists a, int_of atof toint q 24 a) ps cs ->
  exists buf' k', run read (mjoin (layer_text rconv_name <$> ps)) (buf, 0, k) = Some (buf', 0, k') /\ length buf' = 256 /\ inv nf nc nt nr ds (fl ++ ((fun c => (c, Some (None, id))) <$> cs)) k'.
Proof.
  intros Hinv Hb H1 H2 Hf. revert fl k buf Hinv Hb H1 H2. induction Hf as [|q d ps cs (Hp & Hd & Hid & a & Ha) Hf IH]; intros fl k buf Hinv Hb H1 H2.
  - exists buf, k. cbn. by rewrite app_nil_r.
  - rewrite fmap_cons. change (mjoin (?a :: ?b)) with (a ++ mjoin b). rewrite run_app. cbn in H1, H2.
    destruct (read_rconv nf nc nt nr ds fl k buf q d None a id) as (b1 & k1 & E1 & Hb1 & Hi1); try done; [lia|lia|by left|].
    rewrite E1. cbn [mbind option_bind]. destruct (IH _ _ _ Hi1 Hb1) as (b2 & k2 & E2 & Hb2 & Hi2); [rewrite app_length; cbn; lia|rewrite app_length; cbn; lia|].
    exists b2, k2. split; [done|]. split; [done|]. rewrite <- app_assoc in Hi2. done.
Qed.
Lemma read_parts nf nc nt nr parts pieces ds fl k buf : Forall2 (means atof mk_fcl mk_cl toint) parts pieces -> inv nf nc nt nr ds fl k -> length buf = 256 ->
  length ds + length (denses pieces) <= nf -> length fl + length (flat pieces) <= nt -> length fl + length (flat pieces) <= 1024 ->
  exists buf' k', run read (mjoin (part_text <$> parts)) (buf, 0, k) = Some (buf', 0, k') /\ length buf' = 256 /\ inv nf nc nt nr (ds ++ denses pieces) (fl ++ flat pieces) k'.
Proof.
  intros Hm. revert ds fl k buf. induction Hm as [|x y parts pieces Hxy Hm IH]; intros ds fl k buf Hinv Hb H1 H2 H3.
  - exists buf, k. cbn. by rewrite !app_nil_r.
  - rewrite fmap_cons. change (mjoin (?a :: ?b)) with (a ++ mjoin b). rewrite run_app. rewrite flat_cons, app_length in H2, H3. rewrite flat_cons, app_assoc.
    destruct Hxy as [p l Hp Hl|p c Hp Hc|p ps act id c cs Hact Hf].
    + cbn in H1. destruct (read_dense nf nc nt nr ds fl k buf p l) as (b1 & k1 & E1 & Hb1 & Hi1); try done; [lia|]. cbn [part_text]. rewrite E1. cbn [mbind option_bind].
      destruct (IH _ _ _ _ Hi1 Hb1) as (b2 & k2 & E2 & Hb2 & Hi2); [rewrite app_length; cbn; unfold denses in *; lia|cbn in *; lia|cbn in *; lia|].
      exists b2, k2. split; [done|]. split; [done|]. rewrite <- app_assoc in Hi2. cbn [piece_flat]. by rewrite app_nil_r.
    + destruct (read_conv nf nc nt nr ds fl k buf p c) as (b1 & k1 & E1 & Hb1 & Hi1); try done; [cbn in *; lia|cbn in *; lia|]. cbn [part_text]. rewrite E1. cbn [mbind option_bind].
      destruct (IH _ _ _ _ Hi1 Hb1) as (b2 & k2 & E2 & Hb2 & Hi2); [cbn in *; unfold denses in *; lia|rewrite app_length; cbn in *; lia|rewrite app_length; cbn in *; lia|].
      exists b2, k2. done.
    + cbn [part_text]. rewrite fmap_cons. change (mjoin (layer_text rconv_name p :: ?b)) with (layer_text rconv_name p ++ mjoin b). rewrite run_app. apply Forall2_cons_1 in Hf as [(Hp & Hd & Hid & a & Ha) Hf].
      cbn in H2, H3. rewrite fmap_length in H2, H3.
      destruct (read_rconv nf nc nt nr ds fl k buf p c (Some act) act id) as (b1 & k1 & E1 & Hb1 & Hi1); try done; [lia|lia|by right|]. rewrite E1. cbn [mbind option_bind].
      destruct (read_others nf nc nt nr ds id ps cs _ _ _ Hi1 Hb1) as (b2 & k2 & E2 & Hb2 & Hi2); [rewrite app_length; cbn; lia|rewrite app_length; cbn; lia|done|].
      rewrite E2. cbn [mbind option_bind]. rewrite <- app_assoc in Hi2.
      destruct (IH _ _ _ _ Hi2 Hb2) as (b3 & k3 & E3 & Hb3 & Hi3); [cbn in *; unfold denses in *; lia|rewrite app_length; cbn; rewrite fmap_length; lia|rewrite app_length; cbn; rewrite fmap_length; lia|].
      exists b3, k3. done.
Qed.
Lemma read_description header parts pieces : Forall field header -> Forall2 (means atof mk_fcl mk_cl toint) parts pieces ->
  length (denses pieces) <= occurrences full_name header -> length (flat pieces) <= occurrences conv_name header + occurrences rconv_name header -> length (flat pieces) <= 1024 ->
  exists buf k, run read (description header parts) (replicate 256 None, 0, start) = Some (buf, 0, k) /\ length buf = 256 /\
    inv (occurrences full_name header) (occurrences conv_name header) (occurrences conv_name header + occurrences rconv_name header) (occurrences res_name header) (denses pieces) (flat pieces) k.
Proof.
  intros Hh Hm H1 H2 H3. unfold description. rewrite run_app.
  destruct (read_header atof mk_fcl mk_cl toint header (replicate 256 None) (replicate 256 None) 0 0 0 0 0 0 [] [] (replicate 1024 None) (replicate 1024 None) (replicate 1024 None) 0 0 Hh) as (b1 & E1 & Hb1); [apply replicate_length|].
  change (@start F L C) with (Core (replicate 256 None) 0 0 false 0 0 0 0 [] [] (replicate 1024 None) (replicate 1024 None) (replicate 1024 None) 0 0 : core).
  rewrite E1. cbn [mbind option_bind Nat.add]. rewrite run_app, read_newline. cbn [on_newline mbind option_bind].
  edestruct (read_parts (occurrences full_name header) (occurrences conv_name header) (occurrences conv_name header + occurrences rconv_name header) (occurrences res_name header) parts pieces [] [])
    as (b2 & k2 & E2 & Hb2 & Hi2); [done| |exact Hb1|done|done|done|exists b2, k2; split; [exact E2|split; [exact Hb2|exact Hi2]]].
  constructor; cbn [k_floats k_int k_flag k_body k_nf k_nc k_nt k_nr k_fcls k_cls k_kind k_act k_block k_cf k_cc]; try done; try apply replicate_length; by rewrite Nat.sub_0_r.
Qed.

(** * The blocks *)
Lemma blocks_cons (x : piece L C) xs : blocks (x :: xs) = match x with PBlock a _ cs => (a, cs) :: blocks xs | _ => blocks xs end.
Proof. unfold blocks. cbn. by destruct x. Qed.
Lemma convs_cons (x : piece L C) xs : convs (x :: xs) = match x with PConv c => c :: convs xs | _ => convs xs end.
Proof. unfold convs. cbn. by destruct x. Qed.
(** the layers j .. j + n - 1 *)
Lemma close_spec (k : core) (fl : list (C * mark)) m j oid g cs act rls : k_cls k = part_full fl.*1 m -> take (length cs) (drop j fl.*1) = cs -> g_size g = length cs ->
  k_act k !! j = Some (Some act) -> g_rls g = part_full rls (S oid) -> g_nr g = length rls ->
  close k j g = Some (Groups (g_open g) (g_size g) (g_cls g) (g_nc g) (part_full (rls ++ [(act, cs)]) oid) (S (length rls))).
Proof.
  intros Hc Hcs Hs Ha Hr Hn. unfold close. rewrite Hc, Hs.
  assert (E : mapM (fun i => x ← rd (part_full fl.*1 m) i; x) (seq j (length cs)) = Some cs).
  { apply mapM_Some. apply Forall2_lookup. intros i. destruct (decide (i < length cs)) as [Hi|Hi].
    - rewrite lookup_seq_lt by done. destruct (lookup_lt_is_Some_2 cs i Hi) as [x Hx]. rewrite Hx. constructor.
      assert (fl.*1 !! (j + i) = Some x) by (rewrite <- Hcs in Hx; rewrite lookup_take in Hx by done; by rewrite lookup_drop in Hx).
      unfold rd. erewrite part_full_lookup by done. done.
    - rewrite lookup_seq_ge by lia. rewrite lookup_ge_None_2 by lia. constructor. }
  rewrite E. cbn [mbind option_bind]. unfold rd. rewrite Ha. cbn [mbind option_bind]. rewrite Hr, Hn. rewrite wr_push. done.
Qed.
(** the state of the grouping: the pieces done, and the block that is still open *)
Definition g_state (nc nr : nat) (cls : list C) (rls : list (Z * list C)) (open : option (nat * Z)) (size : nat) : groups :=
  Groups open size (part_full cls (nc - length cls)) (length cls) (part_full rls (nr - length rls)) (length rls).
Lemma group_others (k : core) fl m id j cs2 : k_cls k = part_full fl.*1 m ->
  (forall i x, fl !! i = Some x -> exists kd ac bl, k_kind k !! i = Some kd /\ k_act k !! i = Some ac /\ k_block k !! i = Some bl /\ marked x.2 kd ac bl) ->
  forall pre post n nc nr cls rls, fl = pre ++ ((fun c => (c, Some (None, id))) <$> cs2) ++ post ->
  for_loop (length cs2) (length pre) (group k) (g_state nc nr cls rls (Some (j, id)) n) = Some (g_state nc nr cls rls (Some (j, id)) (n + length cs2)).
Proof.
  intros Hc Hmk. induction cs2 as [|c cs2 IH]; intros pre post n nc nr cls rls ->; [cbn; by rewrite Nat.add_0_r|]. cbn [length for_loop].
  destruct (Hmk (length pre) (c, Some (None, id))) as (kd & ac & bl & H1 & H2 & H3 & H4); [rewrite fmap_cons; cbn; by rewrite list_lookup_middle|]. cbn in H4. destruct H4 as (-> & -> & _).
  assert (E : group k (length pre) (g_state nc nr cls rls (Some (j, id)) n) = Some (g_state nc nr cls rls (Some (j, id)) (S n))).
  { unfold group, rd. rewrite H1. cbn [mbind option_bind]. rewrite decide_False by done. rewrite H3. cbn [mbind option_bind g_open g_state]. rewrite decide_False by tauto. done. }
  rewrite E. cbn [mbind option_bind].
  pose proof (IH (pre ++ [(c, Some (None, id))]) post (S n) nc nr cls rls) as H. rewrite app_length in H. cbn [length] in H. rewrite Nat.add_1_r in H. rewrite H.
  - f_equal. f_equal. lia.
  - rewrite <- !app_assoc. done.
Qed.

(** what is still to be closed: a block of act and cs from layer j on *)
Definition pending (k : core) (fl : list (C * mark)) (open : option (nat * Z)) (size : nat) (p : option (Z * list C)) : Prop :=
  match open, p with
  | None, None => size = 0
  | Some (j, _), Some (act, cs) => size = length cs /\ take (length cs) (drop j fl.*1) = cs /\ k_act k !! j = Some (Some act)
  | _, _ => False
  end.
Lemma group_pieces (k : core) fl m nc nr : k_cls k = part_full fl.*1 m ->
  (forall i x, fl !! i = Some x -> exists kd ac bl, k_kind k !! i = Some kd /\ k_act k !! i = Some ac /\ k_block k !! i = Some bl /\ marked x.2 kd ac bl) ->
  forall (pieces : list (piece L C)) pre cls rls open size p, fl = pre ++ flat pieces -> Forall (fun x => match x with PBlock _ _ [] => False | _ => True end) pieces ->
  apart (snd <$> open) pieces -> pending k fl open size p ->
  length cls + length (convs pieces) = nc -> length rls + length (olist p) + length (blocks pieces) = nr ->
  exists open' size' p', for_loop (length (flat pieces)) (length pre) (group k) (g_state nc nr cls rls open size)
    = Some (g_state nc nr (cls ++ convs pieces) (rls ++ take (length (olist p ++ blocks pieces) - length (olist p')) (olist p ++ blocks pieces)) open' size') /\
    pending k fl open' size' p' /\ exists front, olist p ++ blocks pieces = front ++ olist p'.
Proof.
  intros Hc Hmk. induction pieces as [|x pieces IH]; intros pre cls rls open size p Hfl Hne Hap Hpend Hn1 Hn2.
  - exists open, size, p. cbn [flat mjoin list_join fmap list_fmap length for_loop]. split; [|split; [done|exists []; cbn; by rewrite app_nil_r]].
    cbn [convs blocks omap list_omap]. rewrite !app_nil_r. rewrite Nat.sub_diag. cbn [take]. by rewrite app_nil_r.
  - apply list.Forall_cons in Hne as [Hx Hne]. rewrite flat_cons in Hfl. rewrite flat_cons, app_length, for_loop_app. rewrite convs_cons in *. rewrite blocks_cons in *.
    destruct x as [l|c|act id cs].
    + (* dense *) cbn [piece_flat length for_loop mbind option_bind]. rewrite Nat.add_0_r. cbn in Hap, Hfl. by apply IH.
    + (* conv *)
      cbn [piece_flat length for_loop]. destruct (Hmk (length pre) (c, None)) as (kd & ac & bl & H1 & H2 & H3 & ->); [rewrite Hfl; cbn; by rewrite list_lookup_middle|].
      assert (Hcl : fl.*1 !! length pre = Some c) by (rewrite Hfl; rewrite list_lookup_fmap; cbn; by rewrite list_lookup_middle).
      assert (Hstep : exists rls', group k (length pre) (g_state nc nr cls rls open size) = Some (g_state nc nr (cls ++ [c]) rls' None 0) /\ rls' = rls ++ olist p).
      { exists (rls ++ olist p). split; [|done]. unfold group, rd. rewrite H1. cbn [mbind option_bind]. rewrite decide_True by done.
        cbn [length] in Hn1.
        unfold g_state. cbn [g_open]. destruct open as [[j pid]|], p as [[act cs]|]; cbn in Hpend; try done.
        - destruct Hpend as (Hsz & Htk & Hact). cbn [olist length] in Hn2.
          replace (nr - length rls) with (S (nr - length (rls ++ [(act, cs)]))) by (rewrite app_length; cbn; lia).
          erewrite (close_spec k fl m j (nr - length (rls ++ [(act, cs)])) _ cs act rls) by (done || (cbn [g_size]; lia)). cbn [mbind option_bind g_cls g_nc g_rls g_nr].
          rewrite Hc. erewrite part_full_lookup by done. cbn [mbind option_bind].
          replace (nc - length cls) with (S (nc - length (cls ++ [c]))) by (rewrite app_length; cbn; lia). rewrite wr_push. cbn [mbind option_bind]. unfold g_state. cbn [olist].
          do 2 f_equal; rewrite app_length; cbn; lia.
        - cbn [mbind option_bind g_cls g_nc g_rls g_nr]. rewrite Hc. erewrite part_full_lookup by done. cbn [mbind option_bind].
          replace (nc - length cls) with (S (nc - length (cls ++ [c]))) by (rewrite app_length; cbn; lia). rewrite wr_push. cbn [mbind option_bind]. unfold g_state. cbn [olist]. rewrite app_nil_r.
          do 2 f_equal; rewrite app_length; cbn; lia. }
      destruct Hstep as (rls' & E & ->). rewrite E. cbn [mbind option_bind].
      destruct (IH (pre ++ [(c, None)]) (cls ++ [c]) (rls ++ olist p) None 0 None) as (o' & s' & p' & E' & Hp' & front & Hfr); [by rewrite <- app_assoc|done|done|done| | |].
      * rewrite app_length. cbn [length olist] in *. lia.
      * rewrite app_length. cbn [length olist] in *. lia.
      * exists o', s', p'. rewrite app_length in E'. cbn [length] in E'. rewrite E'. split; [|split; [done|]].
        -- rewrite <- !app_assoc. cbn [olist app]. do 2 f_equal.
           assert (Hle : length (olist p') <= length (blocks pieces)) by (cbn [olist app] in Hfr; apply (f_equal length) in Hfr; rewrite app_length in Hfr; cbn [length] in Hfr; lia).
           rewrite take_app_ge by (rewrite app_length; lia). do 3 f_equal. rewrite app_length. lia.
        -- exists (olist p ++ front). rewrite <- app_assoc. f_equal. exact Hfr.
    + (* block *)
      destruct cs as [|c cs]; [done|]. cbn [piece_flat length]. rewrite fmap_length. cbn [for_loop].
      destruct (Hmk (length pre) (c, Some (Some act, id))) as (kd & ac & bl & H1 & H2 & H3 & H4); [rewrite Hfl; cbn; by rewrite list_lookup_middle|]. cbn in H4. destruct H4 as (-> & -> & ->).
      assert (Hstep : group k (length pre) (g_state nc nr cls rls open size) = Some (g_state nc nr cls (rls ++ olist p) (Some (length pre, id)) 1)).
      { unfold group, rd. rewrite H1. cbn [mbind option_bind]. rewrite decide_False by done. rewrite H3. cbn [mbind option_bind].
        unfold g_state. cbn [g_open]. destruct open as [[j pid]|], p as [[act' cs']|]; cbn in Hpend; try done.
        - destruct Hap as [Hap _]. cbn in Hap. destruct Hpend as (Hsz & Htk & Hact). rewrite decide_True by congruence. cbn [olist length] in Hn2.
          replace (nr - length rls) with (S (nr - length (rls ++ [(act', cs')]))) by (rewrite app_length; cbn [length olist] in *; lia).
          erewrite (close_spec k fl m j (nr - length (rls ++ [(act', cs')])) _ cs' act' rls) by (done || (cbn [g_size]; lia)). cbn [mbind option_bind g_cls g_nc g_rls g_nr]. unfold g_state. cbn [olist].
          do 2 f_equal; rewrite app_length; cbn; lia.
        - unfold g_state. cbn [g_size g_cls g_nc g_rls g_nr olist]. rewrite app_nil_r. by rewrite Hpend. }
      rewrite Hstep. cbn [mbind option_bind].
      pose proof (group_others k fl m id (length pre) cs Hc Hmk (pre ++ [(c, Some (Some act, id))]) (flat pieces) 1 nc nr cls (rls ++ olist p)) as Ho.
      rewrite app_length in Ho. cbn [length] in Ho. rewrite Nat.add_1_r in Ho. rewrite Ho by (rewrite Hfl; rewrite <- app_assoc; done). cbn [mbind option_bind].
      destruct (IH (pre ++ (c, Some (Some act, id)) :: ((fun c => (c, Some (None, id))) <$> cs)) cls (rls ++ olist p) (Some (length pre, id)) (1 + length cs) (Some (act, c :: cs)))
        as (o' & s' & p' & E' & Hp' & front & Hfr).
      * rewrite Hfl, <- app_assoc. done.
      * done.
      * apply Hap.
      * cbn. split; [done|]. split; [|done]. rewrite Hfl. rewrite !fmap_app. rewrite drop_app_alt by (by rewrite fmap_length). cbn [piece_flat fmap list_fmap app take]. f_equal.
        rewrite take_app_alt; [|rewrite !fmap_length; done]. clear. induction cs as [|a cs IHcs]; [done|]. cbn. by f_equal.
      * done.
      * rewrite app_length. cbn [length olist] in *. lia.
      * exists o', s', p'. rewrite app_length in E'. cbn [length] in E'. rewrite fmap_length in E'. rewrite E'. split; [|split; [done|]].
        -- rewrite <- !app_assoc. cbn [olist app] in *. do 2 f_equal.
           assert (Hle : length (olist p') <= S (length (blocks pieces))) by (cbn [olist app] in Hfr; apply (f_equal length) in Hfr; rewrite app_length in Hfr; cbn [length] in Hfr; lia).
           rewrite (take_app_ge (olist p)) by (rewrite app_length; cbn; lia). do 3 f_equal. rewrite app_length. cbn. lia.
        -- exists (olist p ++ front). cbn [olist app] in Hfr. rewrite <- app_assoc. f_equal. exact Hfr.
Qed.
Lemma assemble_spec (k : core) nf nc nt nr ds pieces : inv nf nc nt nr ds (flat pieces) k -> Forall (fun x : piece L C => match x with PBlock _ _ [] => False | _ => True end) pieces ->
  apart None pieces -> length (flat pieces) = nt -> length (convs pieces) = nc -> length (blocks pieces) = nr ->
  exists g, assemble k = Some g /\ g_rls g = part_full (blocks pieces) 0 /\ g_cls g = part_full (convs pieces) 0.
Proof.
  intros Hinv Hne Hap H1 H2 H3. destruct (group_pieces k (flat pieces) (nt - length (flat pieces)) nc nr (i_cls _ _ _ _ _ _ _ Hinv) (i_marks _ _ _ _ _ _ _ Hinv) pieces [] [] [] None 0 None)
    as (o & s & p & E & Hp & front & Hfr); [done|done|done|done|done|done|].
  unfold assemble. rewrite (i_nc _ _ _ _ _ _ _ Hinv), (i_nt _ _ _ _ _ _ _ Hinv), (i_nr _ _ _ _ _ _ _ Hinv). rewrite <- H1.
  assert (Hs : Groups None 0 (replicate nc None) 0 (replicate nr None) 0 = g_state nc nr [] [] None 0 :> groups) by (unfold g_state; cbn; by rewrite !Nat.sub_0_r).
  rewrite Hs. cbn [length] in E. rewrite E. cbn [mbind option_bind]. cbn [olist app] in *. unfold g_state. cbn [g_open].
  assert (Ht : take (length (blocks pieces) - length (olist p)) (blocks pieces) = front).
  { rewrite Hfr. rewrite take_app_alt; [done|]. rewrite app_length. lia. }
  rewrite Ht. destruct o as [[j id]|], p as [[act cs]|]; cbn in Hp; try done.
  - destruct Hp as (Hsz & Htk & Hact). cbn [olist] in Hfr. replace (nr - length front) with 1 by (rewrite <- H3, Hfr, app_length; cbn; lia).
    erewrite (close_spec k (flat pieces) (nt - length (flat pieces)) j 0 _ cs act front) by (done || apply (i_cls _ _ _ _ _ _ _ Hinv)).
    eexists. split; [reflexivity|]. cbn [g_rls g_cls]. rewrite <- Hfr. split; [done|]. by rewrite H2, Nat.sub_diag.
  - cbn [olist] in Hfr. rewrite app_nil_r in Hfr. eexists. split; [reflexivity|]. cbn [g_rls g_cls]. rewrite <- Hfr, H3, H2, !Nat.sub_diag. done.
Qed.
End desc.
