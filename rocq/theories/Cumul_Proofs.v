From Verif Require Import RealSum Heap_Model Heap_Proofs Cumul_Model Cumul_Spec.
Open Scope nat_scope.

Notation up k j := (Nat.iter k (fun x => (x - 1) / 2) j).
Definition insub (i j : nat) : Prop := exists k, up k j = i.

Lemma par_le j : (j - 1) / 2 <= j.
Proof. pose proof (Nat.div_le_upper_bound (j - 1) 2 j). lia. Qed.
Lemma par_lt' j : 0 < j -> (j - 1) / 2 < j.
Proof. apply par_lt. Qed.
Lemma up_le k j : up k j <= j.
Proof. induction k as [|k IH]; cbn [Nat.iter nat_rect]; [done|]. pose proof (par_le (up k j)). unfold Nat.iter in *. lia. Qed.
Lemma up_S k j : up (S k) j = up k ((j - 1) / 2).
Proof. induction k as [|k IH]; [done|]. change (up (S (S k)) j) with ((up (S k) j - 1) / 2). by rewrite IH. Qed.
Lemma up_add a b j : up (a + b) j = up a (up b j).
Proof. induction a as [|a IH]; [done|]. change (up (S a + b) j) with ((up (a + b) j - 1) / 2). by rewrite IH. Qed.
Lemma up_0 k : up k 0 = 0.
Proof. pose proof (up_le k 0). lia. Qed.

Lemma insub_refl i : insub i i.
Proof. by exists 0. Qed.
Lemma insub_le i j : insub i j -> i <= j.
Proof. intros [k <-]. apply up_le. Qed.
Lemma insub_par i j : insub i ((j - 1) / 2) -> insub i j.
Proof. intros [k <-]. exists (S k). apply up_S. Qed.
Lemma insub_inv i j : insub i j -> i = j \/ insub i ((j - 1) / 2).
Proof. intros [[|k] <-]; [by left|right]. exists k. by rewrite up_S. Qed.
Lemma ancestor_insub i j : ancestor i j <-> 0 < j /\ insub i ((j - 1) / 2).
Proof.
  split.
  - intros [Hne H]. apply insub_inv in H as [->|H]; [done|]. split; [|done].
    destruct j; [|lia]. exfalso. apply Hne. destruct H as [k <-]. cbn. apply up_0.
  - intros [Hj H]. split; [|by apply insub_par]. apply insub_le in H. pose proof (par_lt' j Hj). lia.
Qed.
Lemma insub_dec i j : {insub i j} + {~ insub i j}.
Proof.
  induction (lt_wf j) as [j _ IH]. destruct (decide (i = j)) as [->|Hne]; [left; apply insub_refl|].
  destruct (decide (j = 0)) as [->|Hj].
  - right. intros H. apply insub_le in H. lia.
  - destruct (IH ((j - 1) / 2) (par_lt' j ltac:(lia))) as [H|H].
    + left. by apply insub_par.
    + right. intros H'. apply insub_inv in H' as [?|?]; done.
Qed.
#[global] Instance ancestor_decision i j : Decision (ancestor i j).
Proof.
  destruct (decide (i = j)) as [->|Hne]; [right; intros [? _]; done|].
  destruct (insub_dec i j) as [H|H]; [left; split; done|right; intros [_ H']; done].
Defined.

(** ** The update *)
Lemma update_up_ok n v : forall fuel (cum : list R) index started,
  length cum = n -> index < n -> index < fuel ->
  exists cum', update_up fuel cum index started v = Some cum' /\ length cum' = n /\
    forall i x, cum !! i = Some x ->
      cum' !! i = Some (x + (if decide (ancestor i index \/ (i = index /\ started = false)) then v else 0))%R.
Proof.
  induction fuel as [|fuel IH]; intros cum index started Hl Hi Hf; [lia|]. cbn [update_up].
  assert (exists cum1, (if started then Some cum else x ← rd cum index; wr cum index (x + v)%R) = Some cum1 /\ length cum1 = n /\
    forall i x, cum !! i = Some x -> cum1 !! i = Some (x + (if decide (i = index /\ started = false) then v else 0))%R) as (cum1 & -> & Hl1 & H1).
  { destruct started.
    - exists cum. split; [done|]. split; [done|]. intros i x Hx. rewrite Hx. rewrite decide_False by naive_solver. f_equal. lra.
    - destruct (lookup_lt_is_Some_2 cum index) as [x Hx]; [lia|]. unfold rd. rewrite Hx. cbn [mbind option_bind].
      rewrite wr_Some by lia. eexists. split; [done|]. split; [by rewrite insert_length|].
      intros i y Hy. destruct (decide (i = index)) as [->|].
      + rewrite list_lookup_insert by lia. assert (x = y) as -> by congruence. by rewrite decide_True.
      + rewrite list_lookup_insert_ne by done. rewrite decide_False by naive_solver. rewrite Hy. f_equal. lra. }
  cbn [mbind option_bind]. destruct (decide (index = 0)) as [->|H0].
  - exists cum1. split; [done|]. split; [done|]. intros i x Hx. rewrite (H1 i x Hx). do 2 f_equal.
    apply decide_ext. split; [by right|]. intros [Ha|?]; [|done]. apply ancestor_insub in Ha. lia.
  - rewrite c_parent_spec by lia. pose proof (par_lt' index ltac:(lia)).
    destruct (IH cum1 ((index - 1) / 2) false) as (cum2 & E2 & Hl2 & H2); [done|lia|lia|].
    exists cum2. split; [done|]. split; [done|]. intros i x Hx. rewrite (H2 i _ (H1 i x Hx)). f_equal.
    assert (Hanc : ancestor i index <-> ancestor i ((index - 1) / 2) \/ (i = (index - 1) / 2 /\ false = false)).
    { rewrite ancestor_insub. split.
      - intros [_ Hin]. destruct (decide (i = (index - 1) / 2)); [by right|]. left. split; done.
      - intros [[_ Hin]|[-> _]]; (split; [lia|]); [done|apply insub_refl]. }
    destruct (decide (i = index /\ started = false)) as [[-> Hst]|Hn].
    + rewrite (decide_False (P := ancestor index ((index - 1) / 2) \/ _)).
      * rewrite decide_True by (right; done). lra.
      * intros [[_ Hin]|[? _]]; [apply insub_le in Hin|]; lia.
    + destruct (decide (ancestor i ((index - 1) / 2) \/ i = (index - 1) / 2 /\ false = false)) as [Hd|Hd].
      * rewrite decide_True by (left; by apply Hanc). lra.
      * rewrite decide_False; [lra|]. intros [Ha|?]; [|done]. by apply Hd, Hanc.
Qed.

(** ** Totals *)
Definition wt (w : list R) (j : nat) : R := default 0%R (w !! j).
Definition elems (n : nat) (P : nat -> Prop) `{!forall j, Decision (P j)} : list nat := filter P (seq 0 n).
Lemma total_over_iff w n (P : nat -> Prop) `{!forall j, Decision (P j)} s :
  total_over w n P s <-> s = suml (map (wt w) (elems n P)).
Proof.
  assert (Hin : forall j, j ∈ elems n P <-> j < n /\ P j).
  { intros j. unfold elems. rewrite elem_of_list_filter, elem_of_seq. split; intros [? ?]; split; (done || lia). }
  assert (Hnd : NoDup (elems n P)) by (apply list.NoDup_filter, NoDup_ListNoDup, seq_NoDup).
  split.
  - intros HT. by apply HT.
  - intros -> l Hl Hl'. apply suml_perm, fmap_Permutation, NoDup_Permutation; [done|done|].
    intros j. by rewrite Hin, Hl'.
Qed.
Lemma suml_indicator w n (P : nat -> Prop) `{!forall j, Decision (P j)} :
  suml (map (wt w) (elems n P)) = sumn n (fun j => if decide (P j) then wt w j else 0%R).
Proof.
  unfold elems. rewrite <- suml_seq. induction (seq 0 n) as [|x l IH]; [done|]. cbn [map]. rewrite filter_cons.
  rewrite suml_cons, <- IH. destruct (decide (P x)); cbn [map]; rewrite ?suml_cons; lra.
Qed.

Definition tree_inv (n : nat) (t : tree) : Prop :=
  length (weights t) = n /\ length (cumul t) = n /\
  (forall i x, cumul t !! i = Some x -> x = sumn n (fun j => if decide (ancestor i j) then wt (weights t) j else 0%R)) /\
  total t = sumn n (wt (weights t)).

Lemma tree_init n : tree_inv n (init_tree n).
Proof.
  assert (Hw : forall j, wt (replicate n 0%R) j = 0%R).
  { intros j. unfold wt. destruct (replicate n 0%R !! j) eqn:E; [|done]. by apply lookup_replicate in E as [-> _]. }
  split_and!; cbn; try by rewrite replicate_length.
  - intros i x Hx. apply lookup_replicate in Hx as [-> _]. symmetry. apply sumn_0. intros j _. rewrite Hw. by case_decide.
  - symmetry. by apply sumn_0.
Qed.

Lemma change_weight_ok n t index new : tree_inv n t -> index < n ->
  exists t', change_weight t index new = Some t' /\ tree_inv n t' /\ weights t' = <[index := new]> (weights t).
Proof.
  intros (Hlw & Hlc & Hc & Ht) Hi. unfold change_weight, rd.
  destruct (lookup_lt_is_Some_2 (weights t) index) as [old Hold]; [lia|]. rewrite Hold. cbn [mbind option_bind].
  rewrite wr_Some by lia. cbn [mbind option_bind].
  destruct (update_up_ok n (new - old)%R (index + 1) (cumul t) index true Hlc Hi ltac:(lia)) as (c' & -> & Hlc' & Hc').
  cbn [mbind option_bind]. eexists. split; [done|]. split; [|done].
  assert (Hwt : forall j, wt (<[index:=new]> (weights t)) j = if decide (j = index) then new else wt (weights t) j).
  { intros j. unfold wt. destruct (decide (j = index)) as [Hj|Hj]; [rewrite Hj, list_lookup_insert by lia; done|by rewrite list_lookup_insert_ne]. }
  assert (Hwo : wt (weights t) index = old) by (unfold wt; by rewrite Hold).
  split_and!; cbn.
  - by rewrite insert_length.
  - done.
  - intros i x Hx. destruct (lookup_lt_is_Some_2 (cumul t) i) as [y Hy]; [rewrite Hlc, <- Hlc'; by eapply lookup_lt_Some|].
    rewrite (Hc' i y Hy) in Hx. injection Hx as <-. rewrite (Hc i y Hy).
    rewrite (sumn_update n index (fun j => if decide (ancestor i j) then wt (<[index:=new]> (weights t)) j else 0%R)
      (fun j => if decide (ancestor i j) then wt (weights t) j else 0%R)); [|done|].
    + cbn. rewrite Hwt, (decide_True (P := index = index)) by done. f_equal.
      destruct (decide (ancestor i index)) as [Ha|Ha].
      * rewrite decide_True by by left. lra.
      * rewrite decide_False; [lra|]. intros [?|[_ ?]]; done.
    + intros j Hj Hne. rewrite Hwt. by rewrite (decide_False (P := j = index)).
  - rewrite Ht. rewrite (sumn_update n index (wt (<[index:=new]> (weights t))) (wt (weights t))); [|done|].
    + rewrite Hwt, decide_True by done. lra.
    + intros j Hj Hne. rewrite Hwt. by rewrite decide_False.
Qed.

Lemma change_weights_ok n : forall cs t, tree_inv n t -> Forall (fun c => c.1 < n) cs ->
  exists t', change_weights t cs = Some t' /\ tree_inv n t' /\
    weights t' = foldl (fun w c => <[c.1 := c.2]> w) (weights t) cs.
Proof.
  induction cs as [|[i w] cs IH]; intros t Ht HF; cbn.
  - eauto.
  - apply Forall_cons_1 in HF as [Hi HF]. destruct (change_weight_ok n t i w Ht Hi) as (t1 & -> & H1 & Hw1). cbn [mbind option_bind].
    destruct (IH t1 H1 HF) as (t2 & E2 & H2 & Hw2). exists t2. split; [done|]. split; [done|]. by rewrite Hw2, Hw1.
Qed.

(** ** value_is_child *)
Lemma climb_ok : forall fuel child parent, parent < child -> child <= fuel ->
  exists k, climb fuel child parent = up (S k) child /\ climb fuel child parent <= parent /\ (forall k', k' <= k -> parent < up k' child).
Proof.
  induction fuel as [|fuel IH]; intros child parent Hc Hf; [lia|]. cbn [climb]. rewrite c_parent_spec by lia.
  pose proof (par_lt' child ltac:(lia)) as Hp. destruct (decide (parent < (child - 1) / 2)) as [Hlt|Hge].
  - destruct (IH ((child - 1) / 2) parent Hlt ltac:(lia)) as (k & E & Hle & Hk).
    exists (S k). rewrite E. split; [by rewrite (up_S (S k))|]. split; [by rewrite <- E|].
    intros [|k'] Hk'; [cbn; lia|]. rewrite up_S. apply Hk. lia.
  - exists 0. split; [done|]. split; [lia|]. intros k' Hk'. assert (k' = 0) as -> by lia. done.
Qed.
Lemma value_is_child_ok child parent : value_is_child child parent = true <-> ancestor parent child.
Proof.
  unfold value_is_child. case_decide as Hle.
  - split; [done|]. intros [Hne H]. apply insub_le in H. lia.
  - destruct (climb_ok child child parent ltac:(lia) ltac:(lia)) as (k & E & Hk & Hk'). rewrite bool_decide_eq_true, E.
    split.
    + intros <-. split; [|by exists (S k)]. pose proof (par_lt' child ltac:(lia)). pose proof (up_le k ((child - 1) / 2)). rewrite up_S. lia.
    + intros [Hne [q Hq]]. rewrite E in Hk.
      destruct (decide (q <= k)) as [Hqk|Hqk]; [specialize (Hk' q Hqk); lia|].
      replace q with ((q - S k) + S k) in Hq by lia. rewrite up_add in Hq. pose proof (up_le (q - S k) (up (S k) child)).
      lia.
Qed.

(** ** Preorder listing of a subtree *)
Fixpoint pre (fuel n i : nat) : list nat :=
  match fuel with
  | O => []
  | S f => if decide (i < n) then i :: pre f n (2 * i + 1) ++ pre f n (2 * i + 2) else []
  end.

Lemma child_l i : (2 * i + 1 - 1) / 2 = i. Proof. apply par_l. Qed.
Lemma child_r i : (2 * i + 2 - 1) / 2 = i. Proof. apply par_r. Qed.

Lemma insub_children i j : insub i j <-> i = j \/ insub (2 * i + 1) j \/ insub (2 * i + 2) j.
Proof.
  split.
  - intros [k Hk]. revert j Hk. induction k as [|k IH]; intros j Hk; [by left|].
    rewrite up_S in Hk. destruct (decide (j = 0)) as [->|Hj].
    { left. cbn in Hk. rewrite up_0 in Hk. done. }
    destruct (IH _ Hk) as [Hi|[H|H]].
    + right. destruct (par_child j i ltac:(lia) (eq_sym Hi)) as [->| ->]; [left|right]; apply insub_refl.
    + right. left. by apply insub_par.
    + right. right. by apply insub_par.
  - intros [->|[[k Hk]|[k Hk]]]; [apply insub_refl| |].
    + exists (S k). change (S k) with (1 + k). rewrite up_add, Hk. cbn [Nat.iter nat_rect]. apply child_l.
    + exists (S k). change (S k) with (1 + k). rewrite up_add, Hk. cbn [Nat.iter nat_rect]. apply child_r.
Qed.

Lemma up_lt k i j : 0 < j -> (j - 1) / 2 < i -> up (S k) j <> i.
Proof. intros Hj Hlt E. rewrite up_S in E. pose proof (up_le k ((j - 1) / 2)). lia. Qed.

Lemma insub_disjoint i j : insub (2 * i + 1) j -> insub (2 * i + 2) j -> False.
Proof.
  intros [k Hk] [k' Hk']. destruct (decide (k <= k')) as [Hle|Hle].
  - replace k' with ((k' - k) + k) in Hk' by lia. rewrite up_add, Hk in Hk'. pose proof (up_le (k' - k) (2 * i + 1)). lia.
  - replace k with ((k - k' - 1 + 1) + k') in Hk by lia. rewrite up_add, Hk' in Hk.
    replace (k - k' - 1 + 1) with (S (k - k' - 1)) in Hk by lia.
    eapply (up_lt _ (2 * i + 1) (2 * i + 2)); [lia| |exact Hk]. rewrite child_r. lia.
Qed.

Lemma elem_of_pre n : forall fuel i j, n - i <= fuel -> j ∈ pre fuel n i <-> j < n /\ insub i j.
Proof.
  induction fuel as [|fuel IH]; intros i j Hf; cbn [pre].
  - split; [set_solver|]. intros [Hj H]. apply insub_le in H. lia.
  - case_decide as Hi.
    + rewrite elem_of_cons, elem_of_app, !IH by lia. rewrite (insub_children i j). naive_solver lia.
    + split; [set_solver|]. intros [Hj H]. apply insub_le in H. lia.
Qed.
Lemma NoDup_pre n : forall fuel i, n - i <= fuel -> NoDup (pre fuel n i).
Proof.
  induction fuel as [|fuel IH]; intros i Hf; cbn [pre]; [constructor|]. case_decide as Hi; [|constructor].
  constructor.
  - rewrite elem_of_app, !elem_of_pre by lia. intros [[_ H]|[_ H]]; apply insub_le in H; lia.
  - apply NoDup_app. split; [apply IH; lia|]. split; [|apply IH; lia].
    intros x Hx Hx'. apply elem_of_pre in Hx; [|lia]. apply elem_of_pre in Hx'; [|lia].
    by eapply insub_disjoint; [apply Hx|apply Hx'].
Qed.
Lemma pre_perm n : pre (n + 1) n 0 ≡ₚ seq 0 n.
Proof.
  apply NoDup_Permutation; [apply NoDup_pre; lia|apply NoDup_ListNoDup, seq_NoDup|].
  intros j. rewrite elem_of_pre, elem_of_seq by lia. split; [lia|]. intros Hj. split; [lia|].
  clear Hj. induction (lt_wf j) as [j _ IH]. destruct (decide (j = 0)) as [->|]; [apply insub_refl|].
  apply insub_par, IH, par_lt'. lia.
Qed.
Lemma pre_out fuel n i : n <= i -> pre fuel n i = [].
Proof. intros H. destruct fuel; cbn; [done|]. by rewrite decide_False by lia. Qed.

(** strict descendants *)
Lemma below_perm n i fuel : n - i <= fuel -> elems n (ancestor i) ≡ₚ pre fuel n (2 * i + 1) ++ pre fuel n (2 * i + 2).
Proof.
  intros Hf. apply NoDup_Permutation.
  - apply list.NoDup_filter, NoDup_ListNoDup, seq_NoDup.
  - apply NoDup_app. split; [apply NoDup_pre; lia|]. split; [|apply NoDup_pre; lia].
    intros x Hx Hx'. apply elem_of_pre in Hx; [|lia]. apply elem_of_pre in Hx'; [|lia].
    by eapply insub_disjoint; [apply Hx|apply Hx'].
  - intros j. unfold elems. rewrite elem_of_list_filter, elem_of_seq, elem_of_app, !elem_of_pre by lia.
    unfold ancestor. pose proof (insub_children i j) as HC. unfold insub in HC at 1.
    split.
    + intros [[Hne H] Hj]. apply HC in H as [?|[?|?]]; [done|left|right]; (split; [lia|done]).
    + intros [[Hj H]|[Hj H]]; (split; [|lia]); (split; [apply insub_le in H; lia|]); apply HC; tauto.
Qed.

Section sampling.
  Context (n : nat) (cum w : list R) (taken : list nat).
  Hypothesis Hlw : length w = n.
  Hypothesis Hlc : length cum = n.
  Hypothesis Hcum : forall i x, cum !! i = Some x -> x = suml (map (wt w) (elems n (ancestor i))).
  Hypothesis Htaken : forall t, t ∈ taken -> t < n.

  Local Notation fw := (free_weight w taken).
  Definition mass (l : list nat) : R := suml (map fw l).

  (** the weight of the distinct taken elements strictly below i *)
  Definition tkw (k j : nat) : R := if decide (j ∈ take k taken) then wt w j else 0%R.

  Lemma sub_ok i : exists s, subtracted_value i w taken = Some s /\
    s = suml (map (fun j => if decide (j ∈ taken) then wt w j else 0%R) (elems n (ancestor i))).
  Proof.
    assert (H : exists s, subtracted_value i w taken = Some s /\
      s = suml (map (tkw (length taken)) (elems n (ancestor i)))).
    { unfold subtracted_value.
      apply (for_loop_inv (fun k s => s = suml (map (tkw k) (elems n (ancestor i)))) _ (length taken) 0 0%R).
      - symmetry. apply suml_map_0. intros x _. unfold tkw. rewrite decide_False; [done|]. rewrite take_0. set_solver.
      - intros k s Hk Hs. destruct (lookup_lt_is_Some_2 taken k) as [t Ht]; [lia|]. unfold rd. rewrite Ht. cbn [mbind option_bind].
        assert (Htn : t < n) by (apply Htaken, elem_of_list_lookup; eauto).
        assert (Htk : take (S k) taken = take k taken ++ [t]) by by apply take_S_r.
        unfold inside. destruct (bool_decide (t ∈ take k taken)) eqn:Ein.
        + apply bool_decide_eq_true in Ein. eexists. split; [done|]. rewrite Hs. apply suml_map_ext. intros x _. unfold tkw.
          rewrite Htk. destruct (decide (x ∈ take k taken)) as [Hx|Hx].
          * rewrite decide_True; [done|set_solver].
          * rewrite decide_False; [done|]. set_solver.
        + apply bool_decide_eq_false in Ein.
          assert (Hstep : (suml (map (tkw (S k)) (elems n (ancestor i))) =
             suml (map (tkw k) (elems n (ancestor i))) +
             suml (map (fun j => if decide (j = t) then wt w t else 0%R) (elems n (ancestor i))))%R).
          { rewrite <- suml_map_plus. apply suml_map_ext. intros x _. unfold tkw. rewrite Htk.
            destruct (decide (x = t)) as [->|].
            - rewrite (decide_True (P := t ∈ _ ++ _)) by set_solver. rewrite decide_False by done. lra.
            - destruct (decide (x ∈ take k taken)); [rewrite decide_True by set_solver|rewrite decide_False by set_solver]; lra. }
          assert (Hsing : suml (map (fun j => if decide (j = t) then wt w t else 0%R) (elems n (ancestor i))) = if decide (ancestor i t) then wt w t else 0%R).
          { case_decide as Ha.
            - assert (Hin : t ∈ elems n (ancestor i)) by (unfold elems; rewrite elem_of_list_filter, elem_of_seq; split; [done|lia]).
              assert (Hnd : NoDup (elems n (ancestor i))) by (apply list.NoDup_filter, NoDup_ListNoDup, seq_NoDup).
              apply elem_of_list_split in Hin as (l1 & l2 & E). rewrite E in Hnd |- *. rewrite map_app, suml_app. cbn [map]. rewrite suml_cons.
              apply NoDup_app in Hnd as (_ & Hd & Hnd2). pose proof (NoDup_cons_1_1 _ _ Hnd2) as Hnt.
              rewrite !suml_map_0.
              + rewrite decide_True by done. lra.
              + intros x Hx. rewrite decide_False; [done|]. intros ->. done.
              + intros x Hx. rewrite decide_False; [done|]. intros ->. apply (Hd t Hx). set_solver.
            - apply suml_map_0. intros x Hx. unfold elems in Hx. apply elem_of_list_filter in Hx as [Hx _].
              rewrite decide_False; [done|]. intros ->. done. }
          destruct (value_is_child t i) eqn:Ec.
          * assert (Ha : ancestor i t) by by apply value_is_child_ok.
            destruct (lookup_lt_is_Some_2 w t) as [x Hx]; [lia|]. rewrite Hx. cbn [mbind option_bind].
            eexists. split; [done|]. rewrite Hstep, Hsing, decide_True by done. rewrite Hs. f_equal. unfold wt. by rewrite Hx.
          * eexists. split; [done|]. rewrite Hstep, Hsing, decide_False; [lra|].
            intros Ha. apply value_is_child_ok in Ha. congruence. }
    destruct H as (s & E & ->). eexists. split; [exact E|]. apply suml_map_ext. intros x _. unfold tkw. by rewrite firstn_all.
  Qed.

  (** share of the left subtree = its free mass *)
  Lemma left_mass l : l < n ->
    exists vl s c, (if inside taken l then Some 0%R else rd w l) = Some vl /\ subtracted_value l w taken = Some s /\ rd cum l = Some c /\
      (vl + c - s)%R = mass (pre (n - l) n l).
  Proof.
    intros Hl. destruct (sub_ok l) as (s & Es & Hs).
    destruct (lookup_lt_is_Some_2 w l) as [x Hx]; [lia|]. destruct (lookup_lt_is_Some_2 cum l) as [c Hc]; [lia|].
    exists (fw l), s, c. unfold rd. split; [|split; [done|split; [done|]]].
    - unfold free_weight, inside. rewrite Hx. case_decide as Ht; [by rewrite bool_decide_eq_true_2|by rewrite bool_decide_eq_false_2].
    - rewrite (Hcum l c Hc), Hs. unfold mass.
      assert (Hpre : pre (n - l) n l ≡ₚ l :: elems n (ancestor l)).
      { destruct (n - l) as [|f] eqn:Ef; [lia|]. cbn [pre]. rewrite decide_True by done.
        apply Permutation_skip. symmetry.
        apply NoDup_Permutation.
        - apply list.NoDup_filter, NoDup_ListNoDup, seq_NoDup.
        - apply NoDup_app. split; [apply NoDup_pre; lia|]. split; [|apply NoDup_pre; lia].
          intros y Hy Hy'. apply elem_of_pre in Hy; [|lia]. apply elem_of_pre in Hy'; [|lia].
          by eapply insub_disjoint; [apply Hy|apply Hy'].
        - intros j. rewrite (below_perm n l (n - l)) by lia. rewrite !elem_of_app, !elem_of_pre by lia. done. }
      rewrite (suml_perm _ _ (Permutation_map fw Hpre)). cbn [map]. rewrite suml_cons.
      assert (Hsplit : suml (map (wt w) (elems n (ancestor l))) = (suml (map fw (elems n (ancestor l))) +
        suml (map (fun j => if decide (j ∈ taken) then wt w j else 0%R) (elems n (ancestor l))))%R).
      { rewrite <- suml_map_plus. apply suml_map_ext. intros j _. unfold free_weight. case_decide; [|fold (wt w j)]; lra. }
      rewrite Hsplit. lra.
  Qed.

  Context (S : R).
  Hypothesis HS : (0 < S)%R.

  Lemma sample_ok : forall fuel i rv, i < n -> n - i < fuel -> (0 < rv)%R -> (rv * S <= mass (pre (n - i) n i))%R ->
    exists k, weighted_sample fuel cum w taken n S i rv = Some k /\ k < n /\ k ∉ taken /\
      interval_of w taken (pre (n - i) n i) (rv * S) k.
  Proof.
    induction fuel as [|fuel IH]; intros i rv Hi Hf Hrv Hle; [lia|]. cbn [weighted_sample].
    rewrite decide_False by lia.
    destruct (lookup_lt_is_Some_2 w i) as [x Hx]; [lia|].
    assert (Hv : (if inside taken i then Some 0%R else w0 ← rd w i; Some (w0 / S)%R) = Some (fw i / S)%R).
    { unfold inside, free_weight, rd. rewrite Hx. case_decide as Ht.
      - rewrite bool_decide_eq_true_2 by done. f_equal. lra.
      - rewrite bool_decide_eq_false_2 by done. done. }
    rewrite Hv. cbn [mbind option_bind]. unfold inside at 1.
    assert (Hcmp : forall y, (rv <= y / S <-> rv * S <= y)%R).
    { intros y. split; intros H.
      - apply (Rmult_le_compat_r S) in H; [|lra]. unfold Rdiv in H. rewrite Rmult_assoc, Rinv_l in H by lra. lra.
      - apply (Rmult_le_reg_r S); [done|]. unfold Rdiv. rewrite Rmult_assoc, Rinv_l by lra. lra. }
    destruct (decide (i ∉ taken /\ (rv * S <= fw i)%R)) as [[Hnt Hr]|Hr].
    { (* the element itself *)
      rewrite bool_decide_eq_false_2 by done. destruct (Rle_dec rv (fw i / S)) as [_|Hn]; [|exfalso; by apply Hn, Hcmp].
      exists i. split; [done|]. split; [done|]. split; [done|].
      destruct (n - i) as [|f] eqn:Ef; [lia|]. cbn [pre]. rewrite decide_True by done.
      exists [], (pre f n (2 * i + 1) ++ pre f n (2 * i + 2)). split; [done|]. cbn [map].
      split; [|unfold suml; cbn; lra]. unfold suml; cbn. apply Rmult_lt_0_compat; done. }
    assert (Hgt : (fw i < rv * S)%R).
    { destruct (decide (i ∈ taken)) as [Ht|Ht].
      - assert (fw i = 0%R) as -> by (unfold free_weight; by rewrite decide_True). apply Rmult_lt_0_compat; done.
      - apply Rnot_le_lt. intros H. by apply Hr. }
    assert (Hcond : (if bool_decide (i ∈ taken) then false else if Rle_dec rv (fw i / S) then true else false) = false).
    { case_bool_decide; [done|]. destruct (Rle_dec rv (fw i / S)) as [H'|]; [|done]. apply Hcmp in H'. lra. }
    rewrite Hcond. clear Hcond.
    destruct (n - i) as [|f] eqn:Ef; [lia|]. cbn [pre] in Hle |- *. rewrite (decide_True (P := i < n)) in Hle |- * by done.
    (* normalise the fuel of pre *)
    assert (Hpre_fuel : forall f1 f2 j, n - j <= f1 -> n - j <= f2 -> pre f1 n j = pre f2 n j).
    { clear. induction f1 as [|f1 IH]; intros f2 j H1 H2.
      - rewrite !pre_out; [done|lia|lia].
      - destruct f2 as [|f2]; [rewrite !pre_out; [done|lia|lia]|]. cbn [pre]. case_decide; [|done].
        by rewrite (IH f2), (IH f2) by lia. }
    set (L := pre f n (2 * i + 1)) in *. set (Rr := pre f n (2 * i + 2)) in *.
    assert (Hmass : mass (i :: L ++ Rr) = (fw i + (mass L + mass Rr))%R).
    { unfold mass. cbn [map]. rewrite suml_cons, map_app, suml_app. done. }
    rewrite Hmass in Hle.
    case_decide as Hl.
    { exfalso. unfold L, Rr in Hle. rewrite !pre_out in Hle by lia. unfold mass, suml in Hle. cbn in Hle. lra. }
    case_decide as Hrt.
    { assert (HR0 : mass Rr = 0%R). { unfold Rr. rewrite pre_out by lia. done. }
      assert (HL : L = [2 * i + 1]).
      { unfold L. destruct f as [|f]; [lia|]. cbn [pre]. rewrite decide_True by lia. rewrite !pre_out by lia. done. }
      assert (Hml : mass L = fw (2 * i + 1)). { rewrite HL. unfold mass, suml. cbn. lra. }
      assert (Hnt : 2 * i + 1 ∉ taken).
      { intros Ht. assert (fw (2 * i + 1) = 0%R) by (unfold free_weight; by rewrite decide_True). lra. }
      unfold inside. rewrite bool_decide_eq_false_2 by done. exists (2 * i + 1). split; [done|]. split; [lia|]. split; [done|].
      exists [i], Rr. split; [by rewrite HL|]. cbn [map]. rewrite suml_cons, suml_nil. lra. }
    destruct (left_mass (2 * i + 1)) as (vl & s & c & Evl & Es & Ec & Hm); [lia|].
    rewrite Evl. cbn [mbind option_bind]. rewrite Es. cbn [mbind option_bind]. rewrite Ec. cbn [mbind option_bind].
    rewrite Hm. assert (HLeq : pre (n - (2 * i + 1)) n (2 * i + 1) = L) by (apply Hpre_fuel; lia).
    assert (HReq : pre (n - (2 * i + 2)) n (2 * i + 2) = Rr) by (apply Hpre_fuel; lia).
    rewrite HLeq. cbn zeta.
    assert (Hsub : ((rv - fw i / S) * S = rv * S - fw i)%R) by (field; lra).
    destruct (Rle_dec (rv - fw i / S) (mass L / S)) as [Hgo|Hgo].
    - destruct (IH (2 * i + 1) (rv - fw i / S)%R) as (k & Ek & Hk & Hkt & (b & a & Eba & Hb)).
      + lia.
      + lia.
      + apply (Rmult_lt_reg_r S); [done|]. rewrite Hsub. lra.
      + rewrite Hsub, HLeq. apply (Rmult_le_compat_r S) in Hgo; [|lra]. rewrite Hsub in Hgo.
        replace (mass L / S * S)%R with (mass L) in Hgo by (field; lra). done.
      + exists k. split; [done|]. split; [done|]. split; [done|]. rewrite HLeq in Eba.
        exists (i :: b), (a ++ Rr). split; [rewrite Eba; by rewrite <- app_assoc|].
        cbn [map]. rewrite suml_cons. rewrite Hsub in Hb. lra.
    - assert (Hgt2 : (mass L < rv * S - fw i)%R).
      { apply Rnot_le_lt in Hgo. apply (Rmult_lt_compat_r S) in Hgo; [|done]. rewrite Hsub in Hgo.
        replace (mass L / S * S)%R with (mass L) in Hgo by (field; lra). done. }
      assert (Hsub2 : ((rv - fw i / S - mass L / S) * S = rv * S - fw i - mass L)%R) by (field; lra).
      destruct (IH (2 * i + 2) (rv - fw i / S - mass L / S)%R) as (k & Ek & Hk & Hkt & (b & a & Eba & Hb)).
      + lia.
      + lia.
      + apply (Rmult_lt_reg_r S); [done|]. rewrite Hsub2. lra.
      + rewrite Hsub2, HReq. lra.
      + exists k. split; [done|]. split; [done|]. split; [done|]. rewrite HReq in Eba.
        exists (i :: L ++ b), a. split; [rewrite Eba; cbn; by rewrite <- app_assoc|].
        cbn [map]. rewrite suml_cons, map_app, suml_app. fold (mass L). rewrite Hsub2 in Hb. lra.
  Qed.
End sampling.
