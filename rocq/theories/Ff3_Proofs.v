From Verif Require Import Base BaseLemmas Neat_Model Neat_Spec Mcts_Model Ff_Model Ff_Proofs Ff2_Proofs.
Open Scope nat_scope.

Section total.
Context {F : Type} (O : num F) (sig : F -> F) (N : nat) (g : genome F) (Hg : okg N g).
Notation n := (length (g_nodes g)). Notation nc := (length (g_conns g)).
Implicit Types s : ev (F:=F).

Definition ok s : Prop := length (e_val s) = n /\ length (e_sto s) = n /\ length (e_nf s) = n /\ length (e_cf s) = nc.
Definition less (a b : Z) : Prop := a = (-1)%Z -> b = (-1)%Z.
Definition le s' s : Prop := Forall2 less (e_cf s') (e_cf s).
Definition pend s : nat := length (filter (fun z => z = (-1)%Z) (e_cf s)).
Definition good s0 s : Prop := ok s /\ le s s0.

Lemma less_diag l : Forall2 less l l.
Proof. induction l; constructor; [by intros ?|done]. Qed.
Lemma le_refl s : le s s.
Proof. unfold le. apply less_diag. Qed.
Lemma less_trans (a b c : list Z) : Forall2 less a b -> Forall2 less b c -> Forall2 less a c.
Proof. intros H1. revert c. induction H1; intros c H2; inversion H2; subst; constructor; [unfold less in *; auto|auto]. Qed.
Lemma le_trans a b c : le a b -> le b c -> le a c.
Proof. apply less_trans. Qed.
Lemma le_look a b k : le a b -> e_cf a !! k = Some (-1)%Z -> e_cf b !! k = Some (-1)%Z.
Proof. intros H E. destruct (Forall2_lookup_l _ _ _ _ _ H E) as (y & Hy & Hl). by rewrite Hy, Hl. Qed.
Lemma pend_le a b : le a b -> pend a <= pend b.
Proof.
  unfold le, pend. induction 1 as [|x y l k Hx H IH]; [done|]. rewrite !filter_cons. destruct (decide (x = (-1)%Z)) as [D|D]; cbn.
  - rewrite decide_True by (by apply Hx). cbn. lia.
  - destruct (decide (y = (-1)%Z)); cbn; lia.
Qed.
Lemma good_refl s : ok s -> good s s.
Proof. split; [done|apply le_refl]. Qed.
Lemma good_trans a b c : good a b -> good b c -> good a c.
Proof. intros [_ H1] [H2 H3]. split; [done|]. by eapply le_trans. Qed.

Lemma put_val_ok i x s : ok s -> i < n -> exists s', put_val i x s = Some s' /\ ok s' /\ e_cf s' = e_cf s.
Proof. intros (H1 & H2 & H3 & H4) Hi. unfold put_val. rewrite wr_Some by lia. cbn. eexists. split; [done|]. unfold ok. cbn. by rewrite insert_length. Qed.
Lemma put_sto_ok i x s : ok s -> i < n -> exists s', put_sto i x s = Some s' /\ ok s' /\ e_cf s' = e_cf s.
Proof. intros (H1 & H2 & H3 & H4) Hi. unfold put_sto. rewrite wr_Some by lia. cbn. eexists. split; [done|]. unfold ok. cbn. by rewrite insert_length. Qed.
Lemma put_nf_ok i x s : ok s -> i < n -> exists s', put_nf i x s = Some s' /\ ok s' /\ e_cf s' = e_cf s.
Proof. intros (H1 & H2 & H3 & H4) Hi. unfold put_nf. rewrite wr_Some by lia. cbn. eexists. split; [done|]. unfold ok. cbn. by rewrite insert_length. Qed.
Lemma add_val_ok i x s : ok s -> i < n -> exists s', add_val O i x s = Some s' /\ ok s' /\ e_cf s' = e_cf s.
Proof.
  intros Hs Hi. unfold add_val. destruct (rd_Some (e_val s) i) as [y Ey]; [destruct Hs; lia|]. rewrite Ey. cbn. by apply put_val_ok.
Qed.
Lemma less_insert l k z : z <> (-1)%Z -> Forall2 less (<[k:=z]> l) l.
Proof.
  intros Hz. revert k. induction l as [|a l IH]; intros [|k]; [constructor..| |].
  - change (<[0:=z]> (a :: l)) with (z :: l). constructor; [by intros ?|apply less_diag].
  - change (<[S k:=z]> (a :: l)) with (a :: <[k:=z]> l). constructor; [by intros ?|apply IH].
Qed.
Lemma put_cf_ok k z s : ok s -> k < nc -> z <> (-1)%Z -> exists s', put_cf k z s = Some s' /\ ok s' /\ le s' s /\ e_cf s' = <[k:=z]> (e_cf s).
Proof.
  intros (H1 & H2 & H3 & H4) Hi Hz. unfold put_cf. rewrite wr_Some by lia. cbn. eexists. split; [done|]. unfold ok. cbn. rewrite insert_length. split; [done|].
  split; [by apply less_insert|done].
Qed.
Lemma pend_insert l k z : z <> (-1)%Z -> l !! k = Some (-1)%Z -> S (length (filter (fun z => z = (-1)%Z) (<[k:=z]> l))) = length (filter (fun z => z = (-1)%Z) l).
Proof.
  intros Hz. revert k. induction l as [|a l IH]; intros [|k] H; cbn in H; [done..| |].
  - injection H as ->. change (<[0:=z]> ((-1)%Z :: l)) with (z :: l). rewrite filter_cons_False, filter_cons_True by done. done.
  - change (<[S k:=z]> (a :: l)) with (a :: <[k:=z]> l). rewrite !filter_cons. destruct (decide (a = (-1)%Z)); cbn [length]; by rewrite <- (IH k H).
Qed.
Lemma eq_le a b : e_cf a = e_cf b -> le a b.
Proof. intros E. unfold le. rewrite E. apply less_diag. Qed.

Context (array : list bool) (Harr : length array = N) (U : nat -> Prop) (HU : forall k, U k -> k ∈ live g (dst g k)).
Context (Hcyc : forall v l, walk g U v l v -> NoDup l -> l <> [] -> exists x, x ∈ l /\ array !! nmb g x = Some true).

Definition sub s : Prop := forall k, e_cf s !! k = Some (-1)%Z -> U k.
Lemma sub_le a b : le a b -> sub b -> sub a.
Proof. intros H Hb k Hk. apply Hb. by eapply le_look. Qed.

Definition trail (t : list nat) (head : nat) : Prop :=
  NoDup t /\ Forall (fun x => x < n /\ array !! nmb g x = Some false) t /\ forall x, x ∈ t -> exists l, walk g U x l head /\ NoDup l /\ l <> [] /\ l ⊆ t.

Lemma trail_new t head : trail t head -> head ∉ t.
Proof using Hcyc.
  intros (Hnd & Hun & Hw) Hx. destruct (Hw head Hx) as (l & Hl & Hn & Hne & Hsub). destruct (Hcyc head l Hl Hn Hne) as (x & Hxl & Em).
  apply Hsub in Hxl. apply (proj1 (list.Forall_forall _ _) Hun) in Hxl as [_ Hxl]. congruence.
Qed.
Lemma trail_cons t head k : trail t head -> head < n -> array !! nmb g head = Some false -> U k -> k ∈ live g head -> trail (head :: t) (src g k).
Proof using Hcyc.
  intros Ht Hh Ha HUk Hk. pose proof (trail_new _ _ Ht) as Hnew. destruct Ht as (Hnd & Hun & Hw). split; [by constructor|]. split; [by constructor|].
  assert (H1 : walk g U head [head] (src g k)) by (apply (w_cons _ _ head k); [done|done|constructor]).
  intros x Hx. apply elem_of_cons in Hx as [->|Hx].
  - exists [head]. split; [done|]. split; [apply list.NoDup_singleton|]. split; [done|]. intros y Hy. apply elem_of_list_singleton in Hy as ->. left.
  - destruct (Hw x Hx) as (l & Hl & Hn & Hne & Hsub). exists (l ++ [head]). split; [by eapply walk_app|]. split.
    + apply list.NoDup_app. split; [done|]. split; [|apply list.NoDup_singleton]. intros y Hy Hy'. apply elem_of_list_singleton in Hy' as ->. auto.
    + split; [by destruct l|]. intros y Hy. apply elem_of_app in Hy as [Hy|Hy]; [right; auto|]. apply elem_of_list_singleton in Hy as ->. left.
Qed.
Lemma trail_len t head : trail t head -> length t <= n.
Proof.
  intros (Hnd & Hun & _). rewrite <- (seq_length n 0). apply submseteq_length. apply NoDup_submseteq; [done|]. intros x Hx. apply elem_of_seq.
  apply (proj1 (list.Forall_forall _ _) Hun) in Hx as [? _]. lia.
Qed.

Definition meas s (via : option (nat * nat)) (t : list nat) : nat := pend s * (n + 2) + match via with None => n + 1 | Some _ => n - length t end.

Lemma in_conn i nd k : g_nodes g !! i = Some nd -> k ∈ n_in nd -> exists c, g_conns g !! k = Some c /\ c_dst c = i /\ k < nc /\ c_src c < n.
Proof using Hg.
  intros Hi Hk. destruct (ok_in _ _ Hg i nd Hi) as [_ H]. apply H in Hk as (c & Hc & E). exists c. split; [done|]. split; [done|].
  split; [by eapply lookup_lt_Some|]. by destruct (ok_conn _ _ Hg k c Hc).
Qed.
Lemma out_conn i nd k : g_nodes g !! i = Some nd -> k ∈ n_out nd -> exists c, g_conns g !! k = Some c /\ c_src c = i /\ k < nc /\ c_dst c < n.
Proof using Hg.
  intros Hi Hk. destruct (ok_out _ _ Hg i nd Hi) as [_ H]. apply H in Hk as (c & Hc & E). exists c. split; [done|]. split; [done|].
  split; [by eapply lookup_lt_Some|]. by destruct (ok_conn _ _ Hg k c Hc) as (_ & [_ ?] & _).
Qed.

Lemma compute_total fuel : forall s head via t, ok s -> sub s -> head < n -> (forall c target, via = Some (c, target) -> c < nc /\ target < n) ->
  (via <> None -> trail t head) -> meas s via t < fuel -> exists s' b, compute O sig fuel g array head via s = Some (s', b) /\ good s s'.
Proof using Hg Harr HU Hcyc.
  induction fuel as [|fuel IH]; intros s head via t Hok Hsub Hh Hvia Ht Hf; [lia|]. cbn [compute].
  destruct (num_lt N g Hg head Hh) as (-> & Hnum & Hin). cbn [mbind option_bind]. set (inp := bool_decide (nmb g head < g_input g)).
  destruct (put_nf_ok head (inp || match via with None => true | Some _ => false end) s Hok Hh) as (s1 & -> & Hok1 & Ecf1). cbn [mbind option_bind].
  assert (G1 : good s s1) by (split; [done|by apply eq_le]).
  destruct (lookup_lt_is_Some_2 array (nmb g head) ltac:(lia)) as [am Eam].
  assert (Hst : exists stop, match via with
      | Some (c, target) =>
        if inp then y ← rd (g_conns g) c; x ← rd (e_val s1) head; s ← put_cf c (-2) s1; s ← add_val O target (n_mul O x (c_weight y)) s; Some (Some (s, true))
        else b ← rd array (nmb g head); if (b : bool) then Some (Some (s1, false)) else Some None
      | None => Some None end = Some stop /\ (match stop with Some (s2, _) => good s s2 | None => via <> None -> inp = false /\ am = false end)).
  { destruct via as [[c target]|]; [|by exists None]. destruct (Hvia c target eq_refl) as [Hc Htg]. destruct inp eqn:Ei.
    - destruct (rd_Some _ _ Hc) as [y ->]. cbn [mbind option_bind]. destruct (rd_Some (e_val s1) head) as [x ->]; [destruct Hok1; lia|]. cbn [mbind option_bind].
      destruct (put_cf_ok c (-2)%Z s1 Hok1 Hc ltac:(done)) as (s2 & -> & Hok2 & Hle2 & _). cbn [mbind option_bind].
      destruct (add_val_ok target (n_mul O x (c_weight y)) s2 Hok2 Htg) as (s3 & -> & Hok3 & Ecf3). cbn [mbind option_bind].
      eexists. split; [done|]. cbn. split; [done|]. eapply le_trans; [by apply eq_le|]. eapply le_trans; [done|]. by destruct G1.
    - unfold rd. rewrite Eam. cbn [mbind option_bind]. destruct am; eexists; (split; [done|]); cbn; [done|]. done. }
  destruct Hst as (stop & Est & Hstop). rewrite Est. cbn [mbind option_bind]. clear Est.
  destruct stop as [[s2 b2]|]; [by exists s2, b2|].
  destruct (lookup_lt_is_Some_2 _ _ Hh) as [nd En]. assert (En' : rd (g_nodes g) head = Some nd) by done. rewrite En'. cbn [mbind option_bind].
  (* the incoming connections *)
  match goal with |- context [each ?f (n_in nd) s1] => destruct (each_inv f (good s) (n_in nd) s1 G1) as (s2 & -> & G2) end.
  { intros k q Hk [Hq1 Hq2]. destruct (in_conn _ _ _ En Hk) as (c & Hc & Ed & Hkn & Hsn).
    destruct (rd_Some (e_cf q) k) as [f Ef]; [destruct Hq1 as (_ & _ & _ & ->); done|]. rewrite Ef. cbn [mbind option_bind].
    destruct (f =? -1)%Z eqn:Ef1; [|exists q; done]. apply Z.eqb_eq in Ef1. subst f.
    assert (Hc' : rd (g_conns g) k = Some c) by done. rewrite Hc'. cbn [mbind option_bind].
    destruct (rd_Some (e_nf q) head) as [b Eb]; [destruct Hq1 as (_ & _ & -> & _); done|]. rewrite Eb. cbn [mbind option_bind].
    assert (HUk : U k) by (apply Hsub; by apply (le_look q s)).
    assert (Edst : dst g k = head) by (unfold dst; by rewrite Hc). assert (Esrc : src g k = c_src c) by (unfold src; by rewrite Hc).
    pose proof (HU k HUk) as Hlk. rewrite Edst in Hlk.
    destruct (IH q (c_src c) (Some (k, head)) (match via with None => [] | Some _ => head :: t end)) as (q' & b' & -> & Gq); try done.
    - by apply (sub_le q s).
    - intros ? ? [= <- <-]. done.
    - intros _. rewrite <- Esrc. destruct via as [v|]; [|split; [constructor|split; [constructor|]]; intros x Hx; by apply elem_of_nil in Hx].
      destruct (Hstop ltac:(done)) as [_ Ham]. apply trail_cons; [by apply Ht|done|congruence|done|done].
    - pose proof (pend_le _ _ Hq2). unfold meas in *. destruct via as [v|]; cbn [length].
      + specialize (Ht ltac:(done)). pose proof (trail_new _ _ Ht). destruct (Hstop ltac:(done)) as [_ Ham].
        assert (Htc : trail (head :: t) (src g k)) by (apply trail_cons; [done|done|congruence|done|done]).
        apply trail_len in Htc. cbn in Htc. nia.
      + nia.
    - cbn [mbind option_bind fst snd]. assert (Gs : good s q') by (eapply good_trans; [split; [exact Hq1|exact Hq2]|exact Gq]).
      destruct b; [by exists q'|]. destruct Gs as [Gs1 Gs2]. destruct (put_nf_ok head b' q' Gs1 Hh) as (q2 & -> & ? & ?). exists q2. split; [done|].
      split; [done|]. eapply le_trans; [by apply eq_le|done]. }
  cbn [mbind option_bind].
  (* the contribution through c *)
  assert (H3 : exists s3, match via with
      | Some (c, target) =>
        b ← rd (e_nf s2) head;
        if (b : bool) then
          y ← rd (g_conns g) c; s ← put_cf c (-2) s2; s ← put_nf (c_dst y) true s;
          if inp then None else x ← rd (e_val s) head; add_val O target (n_mul O (sig x) (c_weight y)) s
        else Some s2
      | None => Some s2 end = Some s3 /\ good s s3).
  { destruct via as [[c target]|]; [|by exists s2]. destruct (Hvia c target eq_refl) as [Hc Htg]. destruct (Hstop ltac:(done)) as [Einp _].
    destruct G2 as [Hok2 Hle2]. destruct (rd_Some (e_nf s2) head) as [b ->]; [destruct Hok2 as (_ & _ & -> & _); done|]. cbn [mbind option_bind].
    destruct b; [|by exists s2]. destruct (lookup_lt_is_Some_2 _ _ Hc) as [y Ey]. assert (Ey' : rd (g_conns g) c = Some y) by done. rewrite Ey'. cbn [mbind option_bind].
    destruct (put_cf_ok c (-2)%Z s2 Hok2 Hc ltac:(done)) as (s3 & -> & Hok3 & Hle3 & _). cbn [mbind option_bind].
    destruct (ok_conn _ _ Hg c y Ey) as (_ & [_ Hd] & _).
    destruct (put_nf_ok (c_dst y) true s3 Hok3 Hd) as (s4 & -> & Hok4 & E4). cbn [mbind option_bind]. rewrite Einp.
    destruct (rd_Some (e_val s4) head) as [x ->]; [destruct Hok4; lia|]. cbn [mbind option_bind].
    destruct (add_val_ok target (n_mul O (sig x) (c_weight y)) s4 Hok4 Htg) as (s5 & -> & Hok5 & E5). exists s5. split; [done|]. split; [done|].
    eapply le_trans; [by apply eq_le|]. eapply le_trans; [by apply eq_le|]. eapply le_trans; [exact Hle3|done]. }
  destruct H3 as (s3 & -> & G3). cbn [mbind option_bind].
  (* the outgoing connections *)
  match goal with |- context [each ?f (n_out nd) s3] => destruct (each_inv f (good s) (n_out nd) s3 G3) as (s4 & -> & G4) end.
  { intros k q Hk [Hq1 Hq2]. destruct (out_conn _ _ _ En Hk) as (c & Hc & Ed & Hkn & Hsn).
    destruct (rd_Some (e_cf q) k) as [f Ef]; [destruct Hq1 as (_ & _ & _ & ->); done|]. rewrite Ef. cbn [mbind option_bind].
    destruct (f =? -1)%Z eqn:Ef1; [|exists q; done]. apply Z.eqb_eq in Ef1. subst f.
    destruct (put_cf_ok k (-2)%Z q Hq1 Hkn ltac:(done)) as (q1 & -> & Hok5 & Hle5 & E5). cbn [mbind option_bind].
    destruct (rd_Some (e_nf q1) head) as [b ->]; [destruct Hok5 as (_ & _ & -> & _); done|]. cbn [mbind option_bind].
    destruct b; [|exists q1; split; [done|]; split; [done|]; by eapply le_trans].
    assert (Hc' : rd (g_conns g) k = Some c) by done. rewrite Hc'. cbn [mbind option_bind].
    destruct (rd_Some (e_val q1) head) as [x ->]; [destruct Hok5; lia|]. cbn [mbind option_bind].
    match goal with |- context [add_val O (c_dst c) ?z q1] => destruct (add_val_ok (c_dst c) z q1 Hok5 Hsn) as (q2 & -> & Hok6 & E6) end. cbn [mbind option_bind].
    assert (Hq : le q2 s) by (eapply le_trans; [by apply eq_le|]; eapply le_trans; [exact Hle5|done]).
    destruct (IH q2 (c_dst c) None []) as (q' & b' & -> & Gq); try done.
    - by apply (sub_le q2 s).
    - assert (Hp : S (pend q2) = pend q). { unfold pend. rewrite E6, E5. by apply pend_insert. }
      pose proof (pend_le _ _ Hq2). unfold meas in *. assert (pend s * (n + 2) < S fuel) by lia. nia.
    - cbn [mbind option_bind fst]. exists q'. split; [done|]. eapply good_trans; [|exact Gq]. split; done. }
  cbn [mbind option_bind]. destruct (rd_Some (e_nf s4) head) as [b ->]; [destruct G4 as [(_ & _ & -> & _) _]; done|]. cbn. by exists s4, b.
Qed.
End total.
