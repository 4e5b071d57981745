From Verif Require Import Base BaseLemmas Neat_Model Neat_Spec Ff_Model.
Open Scope nat_scope.

(** * A genome as a graph on the indices of its nodes *)
Section graph.
Context {F : Type}.
Implicit Types g : genome F.

Record okg (N : nat) g : Prop := {
  ok_num : forall i, i < length (g_nodes g) -> exists p, number g i = Some p /\ p < N /\ (p < g_input g <-> i < g_input g);
  ok_inj : forall i j p, number g i = Some p -> number g j = Some p -> i = j;
  ok_size : g_input g + g_output g <= length (g_nodes g);
  ok_conn : forall k c, g_conns g !! k = Some c ->
    c_src c < length (g_nodes g) /\ g_input g <= c_dst c < length (g_nodes g) /\ ~ (g_input g <= c_src c < g_input g + g_output g);
  ok_in : forall i n, g_nodes g !! i = Some n -> NoDup (n_in n) /\ forall k, k ∈ n_in n <-> exists c, g_conns g !! k = Some c /\ c_dst c = i;
  ok_out : forall i n, g_nodes g !! i = Some n -> NoDup (n_out n) /\ forall k, k ∈ n_out n <-> exists c, g_conns g !! k = Some c /\ c_src c = i }.

Lemma number_in g i p : number g i = Some p -> exists n, g_nodes g !! i = Some n /\ n_inn n = S p.
Proof.
  unfold number, rd. destruct (g_nodes g !! i) as [n|]; cbn; [|done]. unfold minus_one. destruct (n_inn n) eqn:E; [done|].
  intros [= <-]. eauto.
Qed.

Lemma wf_okg ip op G g N : consistent ip op G -> well_formed ip op G g -> gl_nodes G <= N -> okg N g.
Proof.
  intros HG Hw HN. pose proof (wf_input _ _ _ _ Hw) as Ei. pose proof (wf_output _ _ _ _ Hw) as Eo.
  assert (Hsz : ip + op <= length (g_nodes g)).
  { destruct (Nat.lt_ge_cases (length (g_nodes g)) (ip + op)) as [L|]; [|done].
    destruct (wf_base _ _ _ _ Hw _ L) as (n & Hn & _). apply lookup_lt_Some in Hn. lia. }
  assert (Hinj : forall i j n m, g_nodes g !! i = Some n -> g_nodes g !! j = Some m -> n_inn n = n_inn m -> i = j).
  { intros i j n m Hi Hj E. apply (NoDup_lookup (node_numbers g) i j (n_inn n) (wf_numbers _ _ _ _ Hw)); unfold node_numbers; rewrite list_lookup_fmap.
    - by rewrite Hi. - rewrite Hj. cbn. by rewrite E. }
  assert (Hnum : forall i n, g_nodes g !! i = Some n -> 1 <= n_inn n <= gl_nodes G /\ (forall j, j < ip + op -> n_inn n = j + 1 <-> i = j)).
  { intros i n Hi. split.
    - apply (wf_range _ _ _ _ Hw). apply elem_of_list_lookup. exists i. unfold node_numbers. by rewrite list_lookup_fmap, Hi.
    - intros j Hj. destruct (wf_base _ _ _ _ Hw j Hj) as (m & Hm & Em). split; [|intros ->; congruence]. intros E. apply (Hinj i j n m); congruence. }
  assert (Hlt : forall i n b, b <= ip + op -> g_nodes g !! i = Some n -> n_inn n <= b <-> i < b).
  { intros i n b Hb Hi. destruct (Hnum i n Hi) as [H1 H2]. split; intros H.
    - assert (E : i = n_inn n - 1) by (apply H2; lia). lia.
    - pose proof (proj2 (H2 i ltac:(lia)) eq_refl). lia. }
  split.
  - intros i Hi. destruct (lookup_lt_is_Some_2 _ _ Hi) as [n Hn]. destruct (Hnum i n Hn) as [H1 _].
    exists (n_inn n - 1). unfold number, rd. rewrite Hn. cbn. unfold minus_one. destruct (n_inn n) as [|q] eqn:E; [lia|].
    replace (S q - 1) with q by lia. split; [done|]. split; [lia|]. pose proof (Hlt i n ip ltac:(lia) Hn). rewrite Ei. lia.
  - intros i j p Hi Hj. apply number_in in Hi as (n & Hn & E). apply number_in in Hj as (m & Hm & E'). apply (Hinj i j n m); congruence.
  - lia.
  - intros k c Hc. destruct (wf_ends _ _ _ _ Hw k c Hc) as (p & x & y & _ & Hx & Hy & Hm).
    destruct (co_ends _ _ _ HG _ _ _ Hm) as (H1 & H2 & H3 & H4). unfold is_output, is_input in *.
    pose proof (lookup_lt_Some _ _ _ Hx). pose proof (lookup_lt_Some _ _ _ Hy).
    pose proof (Hlt _ _ ip ltac:(lia) Hx). pose proof (Hlt _ _ (ip + op) ltac:(lia) Hx). pose proof (Hlt _ _ ip ltac:(lia) Hy). lia.
  - intros i n Hi. destruct (wf_lists _ _ _ _ Hw i n Hi) as (_ & ? & _ & ?). done.
  - intros i n Hi. destruct (wf_lists _ _ _ _ Hw i n Hi) as (? & _ & ? & _). done.
Qed.

(** * The paths *)
Definition nmb g i : nat := default 0 (number g i).
Definition on g k : bool := match g_conns g !! k with Some c => c_flag c | None => false end.
Definition src g k : nat := match g_conns g !! k with Some c => c_src c | None => 0 end.
Definition dst g k : nat := match g_conns g !! k with Some c => c_dst c | None => 0 end.
Definition ins g i : list nat := match g_nodes g !! i with Some n => n_in n | None => [] end.
Definition outs g i : list nat := match g_nodes g !! i with Some n => n_out n | None => [] end.
Definition live g i : list nat := filter (fun k => Is_true (on g k)) (ins g i).

Definition path : Type := list nat * list nat * Z.
Definition ext (head k : nat) (p : path) : path := (head :: p.1.1, k :: p.1.2, p.2).
Fixpoint paths fuel g (m : list bool) head : list path :=
  match fuel with 0 => [] | S fuel =>
    if decide (head < g_input g) then [([head], [], 0%Z)]
    else if default false (m !! nmb g head) then [([head], [], 1%Z)]
    else match live g head with
      | [] => [([head], [], (-1)%Z)]
      | ks => ks ≫= (fun k => ext head k <$> paths fuel g (<[nmb g head := true]> m) (src g k)) end
  end.

Definition pre (len : nat) (p : path) : ffl := Ffl (replicate (len - 1) None ++ (Some <$> p.1.1)) (replicate (len - 1) None ++ (Some <$> p.1.2)) p.2.

Lemma leaf_pre len head f : leaf len head f = pre len ([head], [], f).
Proof. unfold leaf, pre. cbn. by rewrite app_nil_r. Qed.

Definition falses (m : list bool) : nat := length (filter (fun b => b = false) m).
Lemma falses_insert m p : m !! p = Some false -> S (falses (<[p:=true]> m)) = falses m.
Proof.
  unfold falses. revert p. induction m as [|b m IH]; intros p H; [done|]. destruct p as [|p]; cbn in H.
  - injection H as ->. change (<[0:=true]> (false :: m)) with (true :: m). rewrite filter_cons_False, filter_cons_True by done. done.
  - change (<[S p:=true]> (b :: m)) with (b :: <[p:=true]> m). destruct b; [rewrite !filter_cons_False by done|rewrite !filter_cons_True by done]; cbn [length]; rewrite <- (IH p H); done.
Qed.

Lemma replicate_cons_end {A} (x : A) n l : 1 <= n -> replicate (S n - 1) x ++ l = replicate (n - 1) x ++ x :: l.
Proof. intros H. destruct n; [lia|]. replace (S (S n) - 1) with (n + 1) by lia. replace (S n - 1) with n by lia. rewrite replicate_add, <- (assoc_L (++)). done. Qed.
Lemma insert_pad {A} (x y : A) n l : <[n := y]> (replicate n x ++ x :: l) = replicate n x ++ y :: l.
Proof. rewrite insert_app_r_alt; rewrite replicate_length; [|done]. by rewrite Nat.sub_diag. Qed.

Lemma fill_ok len head c P : 1 <= len -> forall ls,
  fill len head c (length ls) (length (ls ++ (pre (S len) <$> P))) (ls ++ (pre (S len) <$> P)) = Some (ls ++ (pre len <$> (ext head c <$> P))).
Proof.
  intros Hl ls. unfold fill. rewrite app_length, fmap_length. replace (length ls + length P - length ls) with (length P) by lia.
  revert ls. induction P as [|p P IH]; intros ls; cbn [length for_loop fmap list_fmap]; [done|].
  set (p' := pre len (ext head c p)).
  assert (E : (l ← rd (ls ++ pre (S len) p :: (pre (S len) <$> P)) (length ls);
     ns ← wr (f_nodes l) (len - 1) (Some head); cs ← wr (f_conns l) (len - 1) (Some c); wr (ls ++ pre (S len) p :: (pre (S len) <$> P)) (length ls) (Ffl ns cs (f_flag l)))
     = Some ((ls ++ [p']) ++ (pre (S len) <$> P))).
  { assert (Q : rd (ls ++ pre (S len) p :: (pre (S len) <$> P)) (length ls) = Some (pre (S len) p)).
    { unfold rd. rewrite lookup_app_r by done. by rewrite Nat.sub_diag. }
    rewrite Q. cbn [mbind option_bind].
    assert (Q1 : wr (f_nodes (pre (S len) p)) (len - 1) (Some head) = Some (f_nodes p')).
    { unfold p', pre. cbn [f_nodes]. rewrite (replicate_cons_end (A:=option nat)) by done.
      rewrite wr_Some by (rewrite app_length, replicate_length; cbn; lia). by rewrite insert_pad. }
    assert (Q2 : wr (f_conns (pre (S len) p)) (len - 1) (Some c) = Some (f_conns p')).
    { unfold p', pre. cbn [f_conns]. rewrite (replicate_cons_end (A:=option nat)) by done.
      rewrite wr_Some by (rewrite app_length, replicate_length; cbn; lia). by rewrite insert_pad. }
    rewrite Q1. cbn [mbind option_bind]. rewrite Q2. cbn [mbind option_bind].
    rewrite wr_Some by (rewrite app_length; cbn; lia). rewrite insert_app_r_alt by done. rewrite Nat.sub_diag. cbn. by rewrite <- (assoc_L (++)). }
  rewrite E. cbn [mbind option_bind]. replace (S (length ls)) with (length (ls ++ [p'])) by (rewrite app_length; cbn; lia).
  rewrite IH. by rewrite <- (assoc_L (++)).
Qed.

Lemma mapM_on g ks : Forall (fun k => is_Some (g_conns g !! k)) ks ->
  mapM (fun k => c ← rd (g_conns g) k; Some (c_flag c)) ks = Some (on g <$> ks).
Proof.
  set (f := fun k => c ← rd (g_conns g) k; Some (c_flag c)).
  induction ks as [|k ks IH]; intros H; [done|]. apply list.Forall_cons in H as [[c Hc] H]. cbn [mapM fmap list_fmap].
  assert (E : f k = Some (on g k)) by (unfold f, rd, on; by rewrite Hc). rewrite E. cbn [mbind option_bind]. rewrite (IH H). done.
Qed.
Lemma forallb_filter (f : nat -> bool) ks : forallb negb (f <$> ks) = match filter (fun k => Is_true (f k)) ks with [] => true | _ => false end.
Proof.
  induction ks as [|k ks IH]; [done|]. cbn [fmap list_fmap forallb].
  destruct (f k) eqn:E; [rewrite filter_cons_True by (by rewrite E)|rewrite filter_cons_False by (rewrite E; auto)]; done.
Qed.

Lemma recon_ok N g : okg N g -> forall fuel m head len lists, 1 <= len -> length m = N -> head < length (g_nodes g) -> falses m < fuel ->
  paths fuel g m head <> [] /\
  exists gj, recon fuel g m head len lists (length lists) =
    Some (m, lists ++ (pre len <$> paths fuel g m head), gj, length (lists ++ (pre len <$> paths fuel g m head))).
Proof.
  intros Hg. induction fuel as [|fuel IH]; intros m head len lists Hl Hm Hh Hf; [lia|].
  destruct (ok_num _ _ Hg head Hh) as (p & Ep & Lp & Hp). cbn [recon paths]. unfold nmb. rewrite Ep. cbn [mbind option_bind default id].
  destruct (decide (p < g_input g)) as [D|D].
  { rewrite decide_True by tauto. split; [done|]. eexists. rewrite leaf_pre. cbn. rewrite app_length. cbn. by rewrite Nat.add_1_r. }
  rewrite decide_False by tauto. destruct (lookup_lt_is_Some_2 m p ltac:(lia)) as [b Eb]. assert (Eb' : rd m p = Some b) by done. rewrite Eb', Eb. cbn [mbind option_bind default id].
  destruct b. { split; [done|]. eexists. rewrite leaf_pre. cbn. rewrite app_length. cbn. by rewrite Nat.add_1_r. }
  destruct (lookup_lt_is_Some_2 _ _ Hh) as [n En]. assert (En' : rd (g_nodes g) head = Some n) by done. rewrite En'. cbn [mbind option_bind].
  destruct (ok_in _ _ Hg head n En) as [_ Hin].
  assert (Hks : Forall (fun k => is_Some (g_conns g !! k)) (n_in n)).
  { apply list.Forall_forall. intros k Hk. apply Hin in Hk as (c & Hc & _). eauto. }
  rewrite (mapM_on g _ Hks). cbn [mbind option_bind]. rewrite forallb_filter.
  assert (El : live g head = filter (fun k => Is_true (on g k)) (n_in n)) by (unfold live, ins; by rewrite En).
  rewrite El. destruct (filter (fun k => Is_true (on g k)) (n_in n)) as [|k0 ks0] eqn:Ef.
  { split; [done|]. eexists. rewrite leaf_pre. cbn. rewrite app_length. cbn. by rewrite Nat.add_1_r. }
  rewrite wr_Some by lia. cbn [mbind option_bind]. set (m1 := <[p:=true]> m).
  assert (Hm1 : length m1 = N) by (unfold m1; by rewrite insert_length).
  assert (Hf1 : falses m1 < fuel) by (pose proof (falses_insert m p Eb); unfold m1; lia).
  set (body := fun k => ext head k <$> paths fuel g m1 (src g k)).
  set (bd := fun (st : rst) c => let '(array, lists, gj, j) := st in y ← rd (g_conns g) c; if c_flag y then r ← recon fuel g array (c_src y) (S len) lists gj;
       let '(array, lists, gj, k) := r in if decide (k = 0) then Some (array, lists, gj, j) else lists ← fill len head c j k lists; Some (array, lists, k, k)
       else Some st).
  assert (HE : forall ks, Forall (fun k => is_Some (g_conns g !! k)) ks -> forall ls, each bd ks (m1, ls, length ls, length ls)
    = let r := ls ++ (pre len <$> (filter (fun k => Is_true (on g k)) ks ≫= body)) in Some (m1, r, length r, length r)).
  { induction ks as [|k ks IHk]; intros H ls.
    - cbn. by rewrite app_nil_r.
    - apply list.Forall_cons in H as [[c Hc] H]. cbn [each].
      assert (Hc' : rd (g_conns g) k = Some c) by done.
      assert (Eon : on g k = c_flag c) by (unfold on; by rewrite Hc). assert (Es : src g k = c_src c) by (unfold src; by rewrite Hc).
      assert (Eb2 : body k = ext head k <$> paths fuel g m1 (c_src c)) by (unfold body; by rewrite Es).
      assert (Bd : bd (m1, ls, length ls, length ls) k = let r := ls ++ (if on g k then pre len <$> body k else []) in Some (m1, r, length r, length r)).
      { unfold bd. rewrite Hc'. cbn [mbind option_bind]. rewrite Eon. destruct (c_flag c); [|cbv zeta; by rewrite app_nil_r].
        destruct (ok_conn _ _ Hg k c Hc) as (Hs & _ & _).
        destruct (IH m1 (c_src c) (S len) ls ltac:(lia) Hm1 Hs Hf1) as (Hne & gj & E). rewrite E. cbn [mbind option_bind].
        rewrite decide_False by (rewrite app_length, fmap_length; destruct (paths fuel g m1 (c_src c)); [done|cbn; lia]).
        rewrite fill_ok by done. cbn [mbind option_bind]. cbv zeta. rewrite Eb2. rewrite !app_length, !fmap_length. done. }
      rewrite Bd. cbv zeta. cbn [mbind option_bind]. rewrite (IHk H). cbv zeta. destruct (on g k) eqn:E1'.
      + rewrite filter_cons_True by (by rewrite E1'). cbn [mbind list_bind]. rewrite fmap_app, (assoc_L (++)). done.
      + rewrite filter_cons_False by (rewrite E1'; auto). rewrite app_nil_r. done. }
  split.
  - cbn [mbind list_bind]. intros E. apply app_eq_nil in E as [E _]. apply fmap_nil_inv in E.
    assert (Hk : k0 ∈ n_in n). { assert (Hk0 : k0 ∈ filter (fun k => Is_true (on g k)) (n_in n)) by (rewrite Ef; left). by apply elem_of_list_filter in Hk0 as [_ ?]. }
    apply Hin in Hk as (c & Hc & _). destruct (ok_conn _ _ Hg k0 c Hc) as (Hs & _ & _). unfold src in E. rewrite Hc in E.
    by destruct (IH m1 (c_src c) (S len) [] ltac:(lia) Hm1 Hs Hf1) as [Hne _].
  - pose proof (HE (n_in n) Hks lists) as HE'. cbv zeta in HE'. rewrite Ef in HE'. eexists.
    assert (Hb : wr m1 p false = Some m).
    { rewrite wr_Some by lia. unfold m1. rewrite list_insert_insert. f_equal. apply list_insert_id. done. }
    match goal with |- context [each ?f (n_in n) ?s] => change (each f (n_in n) s) with (each bd (n_in n) s) end.
    rewrite HE'. cbn [mbind option_bind]. rewrite Hb. cbn [mbind option_bind]. reflexivity.
Qed.
End graph.
