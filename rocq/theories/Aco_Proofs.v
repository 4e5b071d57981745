(** The graph that init_aco builds is determined by the bodies of its nodes and the list of its links. *)
From Verif Require Import BaseLemmas Aco_Model.
Open Scope nat_scope.

(** a link: from, to, operation *)
Notation link := (nat * nat * nat)%type.
Definition idx_out (ts : list link) (u : nat) : list nat := (filter (fun p : nat * link => p.2.1.1 = u) (imap pair ts)).*1.
Definition idx_in (ts : list link) (u : nat) : list nat := (filter (fun p : nat * link => p.2.1.2 = u) (imap pair ts)).*1.

Section mk.
Context {F : Type} (O : num F).
Let zero : F := n_z O 0.
Definition mk_node (ts : list link) (u : nat) (b : body F) : node F :=
  Node b (idx_in ts u) (idx_out ts u) false zero zero zero zero zero (match b with Weight _ _ _ x => x | _ => zero end) None.
Definition mk_edge (t : link) : edge F := Edge t.1.1 t.1.2 t.2 zero false.
Definition mk (bs : list (body F)) (ts : list link) : graph F := Graph (imap (mk_node ts) bs) (mk_edge <$> ts).
Definition wf (n : nat) (ts : list link) : Prop := Forall (fun t : link => t.1.1 < n /\ t.1.2 < n) ts.

Lemma idx_out_snoc ts t u : idx_out (ts ++ [t]) u = idx_out ts u ++ (if decide (t.1.1 = u) then [length ts] else []).
Proof.
  unfold idx_out. rewrite imap_app, list.filter_app, fmap_app. f_equal. cbn [imap]. rewrite filter_cons, filter_nil. cbn. rewrite ?Nat.add_0_r.
  destruct (decide (t.1.1 = u)); done.
Qed.
Lemma idx_in_snoc ts t u : idx_in (ts ++ [t]) u = idx_in ts u ++ (if decide (t.1.2 = u) then [length ts] else []).
Proof.
  unfold idx_in. rewrite imap_app, list.filter_app, fmap_app. f_equal. cbn [imap]. rewrite filter_cons, filter_nil. cbn. rewrite ?Nat.add_0_r.
  destruct (decide (t.1.2 = u)); done.
Qed.
Lemma idx_none n ts u : wf n ts -> n <= u -> idx_out ts u = [] /\ idx_in ts u = [].
Proof.
  intros H Hu. induction ts as [|t ts IH] using rev_ind; [done|]. apply Forall_app in H as [H Ht]. rewrite list.Forall_singleton in Ht. cbn in Ht.
  destruct (IH H) as [E1 E2]. rewrite idx_out_snoc, idx_in_snoc, E1, E2. rewrite !decide_False by lia. done.
Qed.
Lemma mk_nodes_lookup bs ts u : g_nodes (mk bs ts) !! u = mk_node ts u <$> bs !! u.
Proof. cbn. apply list_lookup_imap. Qed.
Lemma mk_length bs ts : length (g_nodes (mk bs ts)) = length bs.
Proof. apply imap_length. Qed.

Lemma init_node_mk bs ts b : wf (length bs) ts -> init_node O b (mk bs ts) = (mk (bs ++ [b]) ts, length bs).
Proof.
  intros H. unfold init_node. rewrite mk_length. f_equal. unfold mk. rewrite imap_app. cbn. do 2 f_equal. unfold new_node, mk_node. rewrite Nat.add_0_r.
  destruct (idx_none _ _ (length bs) H) as [-> ->]; done.
Qed.
Lemma wf_mono n m ts : wf n ts -> n <= m -> wf m ts.
Proof. intros H Hm. eapply list.Forall_impl; [exact H|]. intros t Ht. cbn in *. lia. Qed.
Lemma wf_snoc n ts a b op : wf n ts -> a < n -> b < n -> wf n (ts ++ [(a, b, op)]).
Proof. intros H Ha Hb. apply Forall_app. split; [done|]. by apply list.Forall_singleton. Qed.

Lemma insert_app_last {A} (l : list A) x y : <[length l := y]> (l ++ [x]) = l ++ [y].
Proof. rewrite insert_app_r_alt by lia. by rewrite Nat.sub_diag. Qed.
Lemma connect_mk bs ts a b op : wf (length bs) ts -> a < length bs -> b < length bs -> connect O a b op (mk bs ts) = Some (mk bs (ts ++ [(a, b, op)])).
Proof.
  intros H Ha Hb. unfold connect, init_edge, add_edge, rd.
  destruct (lookup_lt_is_Some_2 _ _ Ha) as [ba Ea]. destruct (lookup_lt_is_Some_2 _ _ Hb) as [bb Eb].
  set (N := g_nodes (mk bs ts)). set (E := g_edges (mk bs ts)). cbn [g_nodes g_edges].
  assert (LN : length N = length bs) by apply mk_length. assert (LE : length E = length ts) by apply fmap_length.
  assert (Na : N !! a = Some (mk_node ts a ba)) by (unfold N; rewrite mk_nodes_lookup, Ea; done).
  assert (Hu : forall u, N !! u = mk_node ts u <$> bs !! u) by (intros u; apply mk_nodes_lookup). assert (EE : E = mk_edge <$> ts) by done. clearbody N E.
  rewrite Na. cbn [mbind option_bind]. rewrite lookup_app_r, Nat.sub_diag by lia. cbn [lookup list_lookup mbind option_bind].
  rewrite (wr_Some (E ++ _)) by (rewrite app_length; cbn; lia). cbn [mbind option_bind].
  rewrite wr_Some by lia. cbn [mbind option_bind g_nodes g_edges g_in g_out g_op g_pher g_flag].
  rewrite insert_app_last. set (na := Node _ _ _ _ _ _ _ _ _ _ _).
  assert (Nb : exists nb, <[a:=na]> N !! b = Some nb) by (apply lookup_lt_is_Some_2; rewrite insert_length; lia). destruct Nb as [nb Nb].
  rewrite Nb. cbn [mbind option_bind]. rewrite lookup_app_r, Nat.sub_diag by lia. cbn [lookup list_lookup mbind option_bind].
  rewrite (wr_Some (E ++ _)) by (rewrite app_length; cbn; lia). cbn [mbind option_bind].
  rewrite wr_Some by (rewrite insert_length; lia). cbn [mbind option_bind g_nodes g_edges g_in g_out g_op g_pher g_flag].
  rewrite insert_app_last. f_equal. unfold mk. f_equal.
  2:{ rewrite EE, fmap_app. done. }
  apply list_eq. intros u. change (imap (mk_node (ts ++ [(a, b, op)])) bs) with (g_nodes (mk bs (ts ++ [(a, b, op)]))). rewrite mk_nodes_lookup.
  destruct (decide (u = b)) as [->|Nub].
  - rewrite list_lookup_insert by (rewrite insert_length; lia). rewrite Eb. cbn [fmap option_fmap option_map]. f_equal.
    unfold mk_node. rewrite idx_out_snoc, idx_in_snoc. cbn [fst snd]. rewrite (decide_True (P := b = b)) by done.
    destruct (decide (a = b)) as [->|Nab].
    + rewrite list_lookup_insert in Nb by lia. injection Nb as <-. rewrite Ea in Eb. injection Eb as ->. subst na. cbn. rewrite LE. done.
    + rewrite list_lookup_insert_ne in Nb by done. rewrite Hu, Eb in Nb. injection Nb as <-. cbn. rewrite LE, app_nil_r. done.
  - rewrite list_lookup_insert_ne by done. destruct (decide (u = a)) as [->|Nua].
    + rewrite list_lookup_insert by lia. rewrite Ea. cbn [fmap option_fmap option_map]. f_equal. subst na.
      unfold mk_node. rewrite idx_out_snoc, idx_in_snoc. cbn [fst snd]. rewrite (decide_True (P := a = a)), (decide_False (P := b = a)) by done. cbn.
      rewrite LE, app_nil_r. done.
    + rewrite list_lookup_insert_ne, Hu by done. destruct (bs !! u) as [bu|]; [|done]. cbn [fmap option_fmap option_map]. f_equal.
      unfold mk_node. rewrite idx_out_snoc, idx_in_snoc. cbn [fst snd]. rewrite (decide_False (P := a = u)), (decide_False (P := b = u)) by done.
      rewrite !app_nil_r. done.
Qed.

(** every node of A is linked to every node of B *)
Definition complete (A B : list nat) (op : nat) : list link := A ≫= (fun a => (fun b => (a, b, op)) <$> B).
Lemma wf_complete n A B op : Forall (fun a => a < n) A -> Forall (fun a => a < n) B -> wf n (complete A B op).
Proof.
  intros HA HB. apply list.Forall_forall. intros t Ht. unfold complete in Ht. apply elem_of_list_bind in Ht as (a & Ht & Ha).
  apply elem_of_list_fmap in Ht as (b & -> & Hb). rewrite list.Forall_forall in HA, HB. cbn. eauto.
Qed.
Lemma wf_app n ts ts' : wf n (ts ++ ts') <-> wf n ts /\ wf n ts'.
Proof. apply Forall_app. Qed.
Lemma wf_perm n ts ts' : ts ≡ₚ ts' -> wf n ts -> wf n ts'.
Proof. intros E. unfold wf. by rewrite E. Qed.

(** a loop that connects a to the nodes of a list *)
Lemma connect_loop bs a op (f : nat -> option nat) cnt i0 ids : a < length bs -> length ids = cnt -> Forall (fun b => b < length bs) ids ->
  (forall i, i < cnt -> f (i0 + i) = ids !! i) -> forall ts, wf (length bs) ts ->
  for_loop cnt i0 (fun i g => b ← f i; connect O a b op g) (mk bs ts) = Some (mk bs (ts ++ complete [a] ids op)).
Proof.
  intros Ha. revert i0 ids. induction cnt as [|cnt IH]; intros i0 ids Hl Hi Hf ts Hw.
  - destruct ids; [|done]. cbn. by rewrite app_nil_r.
  - destruct ids as [|b ids]; [done|]. apply list.Forall_cons in Hi as [Hb Hi]. cbn [for_loop].
    specialize (Hf 0 ltac:(lia)) as E0. rewrite Nat.add_0_r in E0. cbn in E0. rewrite E0. cbn [mbind option_bind].
    rewrite connect_mk by done. cbn [mbind option_bind]. rewrite (IH (S i0) ids).
    + do 2 f_equal. unfold complete. cbn. rewrite <- app_assoc. done.
    + cbn in Hl. lia.
    + done.
    + intros i Hi'. specialize (Hf (S i) ltac:(lia)). rewrite <- Nat.add_succ_comm in Hf. exact Hf.
    + by apply wf_snoc.
Qed.
Lemma add_outputs_mk bs ts n ns size op : wf (length bs) ts -> n < length bs -> size <= length ns -> Forall (fun b => b < length bs) (take size ns) ->
  add_outputs O n ns size op (mk bs ts) = Some (mk bs (ts ++ complete [n] (take size ns) op)).
Proof.
  intros Hw Hn Hs Hl. unfold add_outputs. rewrite (connect_loop bs n op (fun i => rd ns i) size 0 (take size ns)); try done.
  - rewrite take_length. lia.
  - intros i Hi. cbn. rewrite lookup_take by done. done.
Qed.
(** a loop that extends the links by one block per step *)
Lemma block_loop bs (body : nat -> graph F -> option (graph F)) (new : nat -> list link) cnt i0 :
  (forall i ts, i0 <= i < i0 + cnt -> wf (length bs) ts -> body i (mk bs ts) = Some (mk bs (ts ++ new i)) /\ wf (length bs) (new i)) ->
  forall ts, wf (length bs) ts -> for_loop cnt i0 body (mk bs ts) = Some (mk bs (ts ++ (seq i0 cnt ≫= new))) /\ wf (length bs) (seq i0 cnt ≫= new).
Proof.
  revert i0. induction cnt as [|cnt IH]; intros i0 Hb ts Hw; cbn [for_loop seq].
  - cbn. rewrite app_nil_r. split; [done|apply list.Forall_nil; done].
  - destruct (Hb i0 ts ltac:(lia) Hw) as [E W]. rewrite E. cbn [mbind option_bind].
    destruct (IH (S i0)) with (ts := ts ++ new i0) as [E' W'].
    + intros i ts' Hi Hw'. apply Hb; [lia|done].
    + by apply wf_app.
    + rewrite E'. cbn. rewrite <- app_assoc. split; [done|]. by apply wf_app.
Qed.

(** rows of nodes, each with the operation of the links that enter it; every node is linked to every node of the next row *)
Fixpoint links (rows : list (nat * list nat)) : list link :=
  match rows with
  | r1 :: rows => match rows with r2 :: _ => complete r1.2 r2.2 r2.1 ++ links rows | [] => [] end
  | [] => []
  end.
Lemma links_app l1 l2 r r' : links ((l1 ++ [r]) ++ r' :: l2) = links (l1 ++ [r]) ++ complete r.2 r'.2 r'.1 ++ links (r' :: l2).
Proof.
  induction l1 as [|x l1 IH]; [done|]. destruct l1 as [|y l1].
  - cbn. rewrite app_nil_r. done.
  - change (links ((((x :: y :: l1) ++ [r]) ++ r' :: l2))) with (complete x.2 y.2 y.1 ++ links (((y :: l1) ++ [r]) ++ r' :: l2)).
    change (links ((x :: y :: l1) ++ [r])) with (complete x.2 y.2 y.1 ++ links ((y :: l1) ++ [r])). rewrite IH, <- app_assoc. done.
Qed.

(** the rows of a layer with w candidates for each of its d weights, from node [base] on *)
Definition wrow (base w k : nat) : list nat := seq (base + k * w) w.
Definition wrows (base w d : nat) : list (nat * list nat) := (fun k => (if decide (k = 0) then opCopy else opIndexCopy, wrow base w k)) <$> seq 0 d.
Definition act_order (act : option nat) : list nat := match act with None => [0; 1; 2; 5; 3; 4] | Some _ => [0] end.
Definition lrows (base w d : nat) (act : option nat) : list (nat * list nat) :=
  wrows base w d ++ [(opExecute, [base + w * d]); (opExecute, (fun j => base + w * d + 1 + j) <$> act_order act)].
Definition wbodies (rnd : nat -> F) (base input output w : nat) : list (body F) :=
  (fun i => Weight input output (i / w) (if decide (i mod w = 0) then zero else rnd (base + i))) <$> seq 0 (w * input * output).
Definition act_bodies (act : option nat) : list (body F) :=
  match act with None => Activation <$> [aNone; aSigmoid; aRelu; aTanh; aLeaky; aElu] | Some f => [Activation f] end.
Definition lbodies (rnd : nat -> F) (base input output w : nat) (act : option nat) : list (body F) :=
  wbodies rnd base input output w ++ [Fcl input output] ++ act_bodies act.

Lemma wrows_S base w d : wrows base w (S d) = wrows base w d ++ [(if decide (d = 0) then opCopy else opIndexCopy, wrow base w d)].
Proof. unfold wrows. rewrite seq_S, fmap_app. done. Qed.
Lemma complete_bind (l : list nat) base B op : (l ≫= (fun i => complete [base + i] B op)) = complete ((fun i => base + i) <$> l) B op.
Proof. induction l as [|x l IH]; [done|]. rewrite bind_cons, IH, fmap_cons. unfold complete. cbn. rewrite app_nil_r. done. Qed.
Lemma seq_shift_fmap base i n : (fun j => base + j) <$> seq i n = seq (base + i) n.
Proof. revert i. induction n as [|n IH]; intros i; [done|]. cbn. f_equal. change (list_fmap nat nat (Nat.add base) (seq (S i) n)) with ((fun j => base + j) <$> seq (S i) n). rewrite IH. f_equal. lia. Qed.
Lemma wrows_nonempty base w d : exists l r, wrows base w (S d) = l ++ [r] /\ r.2 = wrow base w d.
Proof. eexists _, _. split; [apply wrows_S|done]. Qed.
Lemma bind_ext_in {A B} (l : list A) (f h : A -> list B) : (forall x, x ∈ l -> f x = h x) -> l ≫= f = l ≫= h.
Proof.
  induction l as [|x l IH]; intros H; [done|]. rewrite !bind_cons, (H x) by left. f_equal. apply IH. intros y Hy. apply H. by right.
Qed.
Lemma links_wrows base w d : 0 < w ->
  (seq 0 (w * d) ≫= (fun i => complete [base + i] (wrow base w (i / w + 1)) opIndexCopy)) = links (wrows base w (S d)).
Proof.
  intros Hw. induction d as [|d IH].
  - rewrite Nat.mul_0_r. done.
  - replace (w * S d) with (w * d + w) by lia. rewrite seq_app, bind_app, IH. rewrite (wrows_S _ _ (S d)).
    destruct (wrows_nonempty base w d) as (l & r & -> & Er). rewrite links_app. f_equal.
    cbn [fst snd]. rewrite (decide_False (P := S d = 0)) by lia. rewrite Er. cbn [links].
    rewrite app_nil_r. rewrite (bind_ext_in _ _ (fun i => complete [base + i] (wrow base w (S d)) opIndexCopy)).
    + rewrite complete_bind, seq_shift_fmap. unfold wrow. do 2 f_equal. lia.
    + intros i Hi. apply elem_of_seq in Hi. do 2 f_equal. rewrite Nat.add_comm. cbn. f_equal.
      symmetry. apply (Nat.div_unique i w d (i - w * d)); lia.
Qed.

Lemma create_loop bs ts (f : nat -> body F) (mkb : nat -> nat -> body F) cnt : wf (length bs) ts -> (forall i, i < cnt -> mkb i (length bs + i) = f i) ->
  for_loop cnt 0 (fun i (st : graph F * list nat) => let (g, n) := st in
     let (g, id) := init_node O (mkb i (length (g_nodes g))) g in Some (g, n ++ [id])) (mk bs ts, [])
  = Some (mk (bs ++ (f <$> seq 0 cnt)) ts, seq (length bs) cnt).
Proof.
  intros Hw Hf.
  destruct (for_loop_inv (fun i st => st = (mk (bs ++ (f <$> seq 0 i)) ts, seq (length bs) i))
    (fun i (st : graph F * list nat) => let (g, n) := st in
     let (g, id) := init_node O (mkb i (length (g_nodes g))) g in Some (g, n ++ [id])) cnt 0 (mk bs ts, [])) as (st & -> & ->); [| |done].
  - cbn. by rewrite app_nil_r.
  - intros i st Hi ->. rewrite mk_length, app_length, fmap_length, seq_length, Hf by lia.
    rewrite init_node_mk; [|eapply wf_mono; [done|rewrite app_length; lia]]. eexists. split; [done|].
    rewrite !seq_S, fmap_app, app_assoc. rewrite app_length, fmap_length, seq_length. done.
Qed.
Lemma build_weights_mk rnd input output w bs ts : wf (length bs) ts -> 0 < w -> 0 < input * output ->
  build_weights O rnd input output w (mk bs ts) =
    Some (mk (bs ++ wbodies rnd (length bs) input output w) (ts ++ links (wrows (length bs) w (input * output))), seq (length bs) (w * input * output)) /\
  wf (length bs + w * (input * output)) (links (wrows (length bs) w (input * output))).
Proof.
  intros Hw Hpos Hd. unfold build_weights. rewrite decide_False by lia.
  rewrite (create_loop bs ts (fun i => Weight input output (i / w) (if decide (i mod w = 0) then zero else rnd (length bs + i)))
    (fun i id => Weight input output (i / w) (if decide (i mod w = 0) then zero else rnd id))); [|done|done].
  cbn [mbind option_bind]. fold (wbodies rnd (length bs) input output w). set (B := bs ++ wbodies rnd (length bs) input output w).
  assert (LB : length B = length bs + w * (input * output)) by (unfold B, wbodies; rewrite app_length, fmap_length, seq_length; lia).
  rewrite <- LB.
  assert (EL : links (wrows (length bs) w (input * output)) =
    (seq 0 (w * (input * output - 1)) ≫= (fun i => complete [length bs + i] (wrow (length bs) w (i / w + 1)) opIndexCopy))).
  { rewrite links_wrows by done. do 2 f_equal. lia. }
  rewrite EL.
  destruct (block_loop B (fun i g => for_loop w (i + (w - i mod w)) (fun j g =>
      a ← rd (seq (length bs) (w * input * output)) i; b ← rd (seq (length bs) (w * input * output)) j; connect O a b opIndexCopy g) g)
     (fun i => complete [length bs + i] (wrow (length bs) w (i / w + 1)) opIndexCopy) (w * (input * output - 1)) 0) with (ts := ts) as [E W].
  - intros i ts' Hi Hw'.
    assert (Hid : i / w + 1 < input * output).
    { assert (i / w < input * output - 1); [|lia]. apply Nat.div_lt_upper_bound; lia. }
    assert (Hm : i + (w - i mod w) = (i / w + 1) * w).
    { pose proof (Nat.div_mod i w ltac:(lia)). pose proof (Nat.mod_upper_bound i w ltac:(lia)). lia. }
    assert (Hle : (i / w + 1) * w + w <= w * (input * output)).
    { replace ((i / w + 1) * w + w) with (w * (i / w + 1 + 1)) by lia. apply Nat.mul_le_mono_l. lia. }
    assert (Hrow : Forall (fun b => b < length B) (wrow (length bs) w (i / w + 1))).
    { apply list.Forall_forall. intros b Hb. unfold wrow in Hb. apply elem_of_seq in Hb. lia. }
    split.
    + rewrite Hm. unfold rd. rewrite lookup_seq_lt by lia. cbn [mbind option_bind].
      rewrite (connect_loop B (length bs + i) opIndexCopy (fun j => seq (length bs) (w * input * output) !! j) w _ (wrow (length bs) w (i / w + 1))); try done.
      * lia.
      * unfold wrow. apply seq_length.
      * intros j Hj. unfold wrow. rewrite !lookup_seq_lt by lia. f_equal. lia.
    + apply wf_complete; [|done]. apply list.Forall_singleton. lia.
  - eapply wf_mono; [exact Hw|lia].
  - rewrite E. cbn [mbind option_bind]. done.
Qed.

Lemma seq_bind_complete base i0 n B op : (seq i0 n ≫= (fun i => complete [base + i] B op)) = complete (seq (base + i0) n) B op.
Proof. rewrite complete_bind, seq_shift_fmap. done. Qed.
Lemma act_bodies_length act : length (act_bodies act) = length (act_order act).
Proof. by destruct act. Qed.
Lemma wbodies_length rnd base input output w : length (wbodies rnd base input output w) = w * (input * output).
Proof. unfold wbodies. rewrite fmap_length, seq_length. lia. Qed.
Lemma lbodies_length rnd base input output w act : length (lbodies rnd base input output w act) = w * (input * output) + 1 + length (act_order act).
Proof. unfold lbodies. rewrite !app_length, wbodies_length, act_bodies_length. cbn. lia. Qed.

Lemma nodes_to_attach_mk rnd input output w act bs ts : wf (length bs) ts -> 0 < w -> 0 < input * output ->
  let bs' := bs ++ lbodies rnd (length bs) input output w act in
  let new := links (lrows (length bs) w (input * output) act) in
  nodes_to_attach O rnd input output w act (mk bs ts) = Some (mk bs' (ts ++ new), seq (length bs) (w * input * output)) /\ wf (length bs') new.
Proof.
  intros Hw Hpos Hd bs' new. unfold nodes_to_attach. destruct (build_weights_mk rnd input output w bs ts Hw Hpos Hd) as [-> W1]. cbn [mbind option_bind].
  set (B := bs ++ wbodies rnd (length bs) input output w). set (L1 := links (wrows (length bs) w (input * output))) in *.
  assert (LB : length B = length bs + w * (input * output)) by (unfold B; rewrite app_length, wbodies_length; lia).
  assert (W2 : wf (length B) (ts ++ L1)) by (rewrite LB; apply wf_app; split; [eapply wf_mono; [exact Hw|lia]|done]).
  unfold attach_fcl. rewrite init_node_mk by done.
  assert (LB1 : length (B ++ [Fcl input output]) = S (length B)) by (rewrite app_length; cbn; lia).
  assert (Eoff : w * (input * output - 1) + w = w * (input * output)) by (rewrite Nat.mul_sub_distr_l; pose proof (Nat.mul_le_mono_l 1 (input * output) w); lia).
  destruct (block_loop (B ++ [Fcl input output])
    (fun i g => a ← rd (seq (length bs) (w * input * output)) (w * (input * output - 1) + i); connect O a (length B) opExecute g)
    (fun i => complete [(length bs + w * (input * output - 1)) + i] [length B] opExecute) w 0) with (ts := ts ++ L1) as [E W3].
  { intros i ts' Hi Hw'. unfold rd. rewrite lookup_seq_lt by lia. cbn [mbind option_bind]. split.
    - rewrite connect_mk; [|done|lia|lia]. do 3 f_equal. cbn. do 3 f_equal. lia.
    - apply wf_complete; apply list.Forall_singleton; lia. }
  { eapply wf_mono; [exact W2|lia]. }
  rewrite E. clear E. cbn [mbind option_bind]. rewrite seq_bind_complete in W3 |- *. rewrite Nat.add_0_r in W3 |- *.
  set (L2 := complete (seq (length bs + w * (input * output - 1)) w) [length B] opExecute) in *.
  assert (EL : L1 ++ L2 = links (wrows (length bs) w (input * output) ++ [(opExecute, [length B])])).
  { unfold L1, L2. destruct (wrows_nonempty (length bs) w (input * output - 1)) as (l & r & E & Er).
    replace (S (input * output - 1)) with (input * output) in E by lia. rewrite E. rewrite links_app. cbn [links]. rewrite app_nil_r. f_equal. cbn [fst snd].
    rewrite Er. unfold wrow. do 2 f_equal. lia. }
  set (A := (fun j => length bs + w * (input * output) + 1 + j) <$> act_order act).
  assert (Enew : new = (L1 ++ L2) ++ complete [length B] A opExecute).
  { unfold new, lrows. fold A. rewrite EL, <- LB.
    change [(opExecute, [length B]); (opExecute, A)] with ([(opExecute, [length B])] ++ [(opExecute, A)]). rewrite app_assoc, links_app. cbn [links]. by rewrite app_nil_r. }
  assert (WL : wf (S (length B)) (ts ++ L1 ++ L2)).
  { rewrite app_assoc. apply wf_app. split; [eapply wf_mono; [exact W2|lia]|]. rewrite <- LB1. exact W3. }
  assert (Ebs : bs' = (B ++ [Fcl input output]) ++ act_bodies act) by (unfold bs', lbodies, B; by rewrite <- !app_assoc).
  assert (Lbs : length bs' = S (length B) + length (act_order act)) by (rewrite Ebs, app_length, LB1, act_bodies_length; done).
  assert (FA : Forall (fun b => b < length bs') A).
  { apply list.Forall_forall. intros b Hb. unfold A in Hb. apply elem_of_list_fmap in Hb as (j & -> & Hj). rewrite Lbs, LB.
    assert (j < length (act_order act)); [|lia]. destruct act; cbn in Hj; repeat (apply elem_of_cons in Hj as [->|Hj]; [cbn; lia|]); by apply not_elem_of_nil in Hj. }
  assert (Wnew : wf (length bs') new).
  { rewrite Enew. apply wf_app. split; [apply wf_app in WL as [_ WL]; eapply wf_mono; [exact WL|lia]|].
    apply wf_complete; [|done]. apply list.Forall_singleton. lia. }
  split; [|done]. rewrite <- app_assoc.
  destruct act as [f|].
  - rewrite init_node_mk by (rewrite LB1; exact WL). cbn [act_bodies] in Ebs. rewrite <- Ebs.
    rewrite add_outputs_mk; [|eapply wf_mono; [exact WL|lia]|lia|cbn; lia|].
    + cbn [mbind option_bind]. do 3 f_equal. rewrite Enew, <- !app_assoc. do 4 f_equal. unfold A. cbn. do 2 f_equal. rewrite LB1. lia.
    + cbn. apply list.Forall_singleton. cbn in Lbs. lia.
  - unfold create_activations.
    assert (WL' : forall n, S (length B) <= n -> wf n (ts ++ L1 ++ L2)) by (intros n Hn; eapply wf_mono; [exact WL|done]).
    do 6 (rewrite init_node_mk; [|apply WL'; rewrite !app_length; cbn; lia]).
    replace ((((((( B ++ [Fcl input output]) ++ [Activation 0]) ++ [Activation 1]) ++ [Activation 2]) ++ [Activation 4]) ++ [Activation 5]) ++ [Activation 6]) with bs'
      by (rewrite Ebs, <- !app_assoc; done).
    rewrite !app_length. cbn [length].
    rewrite add_outputs_mk; [|apply WL'; lia|lia|cbn; lia|].
    + cbn [mbind option_bind]. do 3 f_equal. rewrite Enew, <- !app_assoc. do 4 f_equal. unfold A. cbn.
      repeat (apply f_equal2; [lia|]). done.
    + cbn [take]. cbn in Lbs. repeat (apply list.Forall_cons; split; [lia|]). by apply list.Forall_nil.
Qed.
End mk.
