From Verif Require Import NumLib3 Softmax_Model Softmax_Props Attn_Model Attn_Spec.
Open Scope nat_scope.

Lemma el_drop l off i : el (drop off l) i = el l (off + i).
Proof. unfold el. apply nth_drop. Qed.
Lemma at_offset_imap off f (h : nat -> R -> R) l : off <= length l -> f (drop off l) = Some (imap h (drop off l)) ->
  at_offset off f l = Some (imap (fun k x => if decide (off <= k) then h (k - off) x else x) l).
Proof.
  intros Ho E. unfold at_offset. rewrite E. cbn [mbind option_bind]. f_equal. apply list_eq. intros k. rewrite list_lookup_imap.
  destruct (decide (k < off)).
  - rewrite lookup_app_l by (rewrite take_length; lia). rewrite lookup_take by lia. destruct (l !! k); [|done]. cbn. by rewrite decide_False by lia.
  - rewrite lookup_app_r by (rewrite take_length; lia). rewrite take_length, Nat.min_l by lia. rewrite list_lookup_imap, lookup_drop. replace (off + (k - off)) with k by lia.
    destruct (l !! k); [|done]. cbn. by rewrite decide_True by lia.
Qed.
Lemma dot_run a oa b ob size : oa + size <= length a -> ob + size <= length b ->
  dotProduct1D a oa b ob size = Some (sumn size (fun i => el a (oa + i) * el b (ob + i)))%R.
Proof.
  intros Ha Hb. unfold dotProduct1D. rewrite (for_loop_sum size _ (fun i => el a (oa + i) * el b (ob + i))%R).
  - f_equal. lra.
  - intros i Hi. rewrite (rd_el a), (rd_el b) by lia. done.
Qed.
Lemma amv_adds n input oi value oo dim : oi + dim <= length input -> oo + dim <= n ->
  Adds n (fun out => additional_mul_value input oi value out oo dim) (fun k => if decide (oo <= k < oo + dim)%nat then el input (oi + (k - oo))%nat * value else 0)%R.
Proof.
  intros Hi Ho. unfold additional_mul_value. eapply Adds_ext.
  - apply (Adds_loop n dim _ (fun i k => if decide (k = oo + i) then (el input (oi + i) * value)%R else 0%R)). intros i Hlt. eapply Adds_body.
    + intros l Hl. rewrite rd_el by lia. cbn [mbind option_bind]. reflexivity.
    + apply Adds_at. lia.
  - intros k Hk. cbn beta. destruct (decide (oo <= k < oo + dim)).
    + rewrite (sumn_single dim (k - oo)); [rewrite decide_True by lia; done|lia|]. intros i Hlt Hne. by rewrite decide_False by lia.
    + apply sumn_0. intros i Hlt. by rewrite decide_False by lia.
Qed.
Lemma derivative_softmax_run output s error size : size <= length s -> size <= length error -> size <= length output ->
  derivative_softmax output s error size =
    Some (imap (fun j x => x + if decide (j < size)%nat then el s j * (el error j - sumn size (fun i => el error i * el s i)) else 0)%R output).
Proof.
  intros Hs He Ho. unfold derivative_softmax.
  assert (Hin : forall j, (j < size)%nat -> Adds (length output) (for_loop size 0 (fun i out =>
      si ← rd s i; sj ← rd s j; e ← rd error i;
      if decide (i = j) then addat out j ((si * (1 - sj)) * e)%R else addat out j (- (sj * si * e))%R))
      (fun k => if decide (k = j) then el s j * (el error j - sumn size (fun i => el error i * el s i)) else 0)%R).
  { intros j Hj. eapply Adds_ext.
    - apply (Adds_loop (length output) size _ (fun i k => if decide (k = j) then (if decide (i = j) then el s i * (1 - el s j) * el error i else - el s j * el s i * el error i) else 0)%R).
      intros i Hi. eapply Adds_body.
      + intros l Hl. rewrite !rd_el by lia. cbn [mbind option_bind]. instantiate (1 := fun l => addat l j (if decide (i = j) then el s i * (1 - el s j) * el error i else - el s j * el s i * el error i)%R).
        cbn beta. destruct (decide (i = j)); [done|]. f_equal. lra.
      + apply Adds_at. lia.
    - intros k Hk. cbn beta. destruct (decide (k = j)); [|by apply sumn_0].
      pose proof (jacobian_row everything size (el s) (el error) j Hj eq_refl) as Hr. unfold active_sum, everything in Hr. exact Hr. }
  pose proof (Adds_loop (length output) size _ _ Hin) as H. etransitivity; [exact (H output eq_refl)|]. f_equal. apply imap_ext_lt. intros k x Hk _. f_equal.
  destruct (decide (k < size)).
  - rewrite (sumn_single size k); [by rewrite decide_True|done|]. intros i Hi Hne. by rewrite decide_False.
  - apply sumn_0. intros i Hi. by rewrite decide_False by lia.
Qed.

Lemma visible_le masked n t : t < n -> 0 < visible masked n t <= n.
Proof. intros. destruct masked; cbn; lia. Qed.
Lemma row_neq n t t' s s' : s < n -> s' < n -> t <> t' -> t * n + s <> t' * n + s'.
Proof. intros H H' Hne E. apply flat_inj in E; [|done|done]. lia. Qed.
Lemma row_eq n t t' s s' : s < n -> s' < n -> t * n + s = t' * n + s' -> t = t' /\ s = s'.
Proof. intros. by apply (flat_inj n). Qed.

Section Forward.
  Context (q k v score0 soft0 out0 : list R) (n ke ve : nat) (masked : bool).
  Hypothesis (Hq : length q = n * ke) (Hk : length k = n * ke) (Hv : length v = ve * n) (Hsc : length score0 = n * n) (Hsf : length soft0 = n * n) (Ho : length out0 = n * ve).
  Lemma ff_run : exists sc sf o, self_attention_ff q k v score0 soft0 out0 n masked ke ve = Some (sc, sf, o) /\
    length sc = n * n /\ length sf = n * n /\ length o = n * ve /\
    (forall t s, t < n -> s < n -> el sc (t * n + s) = score q k ke t s) /\
    (forall t s, t < n -> s < n -> el sf (t * n + s) = if decide (s < visible masked n t) then weight masked q k n ke t s else el soft0 (t * n + s)) /\
    (forall t c, t < n -> c < ve -> el o (t * ve + c) = (el out0 (t * ve + c) + sumn n (fun s => el sf (t * n + s) * el v (c * n + s)))%R).
  Proof.
    unfold self_attention_ff.
    match goal with |- context [mbind _ (for_loop n 0 ?b (score0, soft0))] => set (body := b) end.
    destruct (for_loop_inv (fun i (st : list R * list R) => length st.1 = n * n /\ length st.2 = n * n /\
        (forall t s, t < i -> s < n -> el st.1 (t * n + s) = score q k ke t s) /\
        (forall t s, t < n -> s < n -> el st.2 (t * n + s) = if decide (t < i /\ s < visible masked n t) then weight masked q k n ke t s else el soft0 (t * n + s)))
      body n 0 (score0, soft0)) as ([sc sf] & E & L1 & L2 & H1 & H2).
    - split; [done|]. split; [done|]. split; [intros; lia|]. intros. by rewrite decide_False by lia.
    - intros i [sc sf] Hi (L1 & L2 & H1 & H2). unfold body. cbn [fst snd] in *.
      destruct (fill1 (n * n) n 0 (fun j sc => d ← dotProduct1D q (i * ke) k (j * ke) ke; wr sc (i * n + j) (d / R_sqrt.sqrt (INR ke))%R) (fun j => i * n + j) (fun j => score q k ke i j) sc) as (sc' & E & L3 & G1 & G2).
      + intros r l Hr Hl. cbn [Nat.add]. rewrite dot_run by nia. done.
      + intros r Hr. apply flat_lt; lia.
      + intros. lia.
      + done.
      + rewrite E. cbn [mbind option_bind].
        pose proof (visible_le masked n i ltac:(lia)) as Hvis.
        assert (Hlen : forall l : list R, length l = n * n -> n <= length (drop (i * n) l)) by (intros l Hl; rewrite drop_length, Hl; nia).
        rewrite (at_offset_imap (i * n) _ (fun k x => if decide (k < visible masked n i) then softmax_of everything (visible masked n i) (drop (i * n) sc') k else x)).
        2:{ nia. }
        2:{ pose proof (Hlen sc' L3). pose proof (Hlen sf L2). replace (if masked then i + 1 else n) with (visible masked n i) by (destruct masked; cbn; lia). rewrite softmax_run by lia. done. }
        cbn [mbind option_bind]. eexists. split; [reflexivity|]. cbn [fst snd]. rewrite imap_length. split; [done|]. split; [done|]. split.
        * intros t s Ht Hs. destruct (decide (t = i)) as [->|]; [by apply G1|]. rewrite G2; [apply H1; lia|]. intros r Hr. by apply row_neq.
        * intros t s Ht Hs. rewrite el_imap by (rewrite L2; apply flat_lt; lia). rewrite H2 by done.
          destruct (decide (t = i)) as [->|Hne].
          -- rewrite (decide_True (P := i * n <= i * n + s)) by lia. replace (i * n + s - i * n) with s by lia.
             rewrite (decide_False (P := i < i /\ s < visible masked n i)) by lia.
             destruct (decide (s < visible masked n i)); [|by rewrite decide_False by lia].
             rewrite (decide_True (P := i < S i /\ _)) by lia.
             unfold softmax_of, weight. rewrite decide_True by done. unfold active_sum, everything. rewrite el_drop, G1 by done. f_equal. apply sumn_ext. intros s' Hs'. rewrite el_drop, G1 by lia. done.
          -- assert (Hor : t < i \/ i < t) by lia. destruct Hor as [Hlt|Hgt].
             ++ rewrite (decide_False (P := i * n <= t * n + s)) by nia. destruct (decide (s < visible masked n t)); [rewrite !decide_True by lia; done|rewrite !decide_False by lia; done].
             ++ rewrite (decide_True (P := i * n <= t * n + s)) by nia. rewrite (decide_False (P := t * n + s - i * n < _)) by nia. rewrite !(decide_False (P := t < _ /\ _)) by lia. done.
    - cbn [Nat.add fst snd] in *. rewrite E. cbn [mbind option_bind fst snd].
      match goal with |- context [mbind _ (for_loop n 0 ?b out0)] => assert (HA : Adds (n * ve) (for_loop n 0 b) (fun k => sum2 n ve (fun i j => if decide (k = i * ve + j)%nat then sumn n (fun s => el sf (i * n + s) * el v (j * n + s)) else 0)%R)) end.
      { apply (Adds_loop2 (n * ve) n ve 0 0). intros i j Hi Hj. cbn [Nat.add]. eapply Adds_body.
        - intros l Hl. rewrite dot_run by nia. cbn [mbind option_bind]. reflexivity.
        - apply Adds_at. apply flat_lt; lia. }
      rewrite (HA out0 Ho). cbn [mbind option_bind]. exists sc, sf, (imap (fun k x => x + sum2 n ve (fun i j => if decide (k = i * ve + j)%nat then sumn n (fun s => el sf (i * n + s) * el v (j * n + s)) else 0))%R out0).
      split; [done|]. split; [done|]. split; [done|]. split; [by rewrite imap_length|]. split; [done|]. split.
      + intros t s Ht Hs. rewrite H2 by done. destruct (decide (s < visible masked n t)); [by rewrite decide_True by lia|by rewrite decide_False by lia].
      + intros t c Ht Hc. assert (t * ve + c < n * ve) by (apply flat_lt; lia). rewrite el_imap by lia. rewrite (sum2_hit n ve _ (fun i j => sumn n (fun s => el sf (i * n + s) * el v (j * n + s))%R)) by done.
        rewrite flat_div, flat_mod by done. done.
  Qed.
End Forward.

Lemma sum2_row n m t s (f : nat -> nat -> nat -> R) : t < n -> s < m ->
  sum2 n m (fun i j => if decide (i = t /\ j = s) then f i j s else 0%R) = f t s s.
Proof.
  intros Ht Hs. rewrite (sum2_single n m t s); [by rewrite decide_True|done|done|]. intros i j Hi Hj Hne. rewrite decide_False by lia. done.
Qed.
(** sums over the row (or column) that contains an index *)
Lemma in_row n i t s : s < n -> (i * n <= t * n + s < i * n + n) <-> i = t.
Proof. intros Hs. split; [|intros ->; lia]. intros H. destruct (Nat.lt_trichotomy i t) as [?|[?|?]]; [nia|done|nia]. Qed.
Lemma sum_row1 n a b t s (f : nat -> nat -> nat -> R) : s < n -> t < a ->
  sum2 a b (fun i j => if decide (i * n <= t * n + s < i * n + n) then f i j (t * n + s - i * n) else 0%R) = sumn b (fun j => f t j s).
Proof.
  intros Hs Ht. unfold sum2. rewrite (sumn_single a t); [|done|].
  - apply sumn_ext. intros j Hj. rewrite decide_True by (apply in_row; done). f_equal. lia.
  - intros i Hi Hne. apply sumn_0. intros j Hj. rewrite decide_False; [done|]. rewrite in_row by done. lia.
Qed.
Lemma sum_row2 n a b t s (f : nat -> nat -> nat -> R) : s < n -> t < b ->
  sum2 a b (fun i j => if decide (j * n <= t * n + s < j * n + n) then f i j (t * n + s - j * n) else 0%R) = sumn a (fun i => f i t s).
Proof.
  intros Hs Ht. unfold sum2. apply sumn_ext. intros i Hi. rewrite (sumn_single b t); [|done|].
  - rewrite decide_True by (apply in_row; done). f_equal. lia.
  - intros j Hj Hne. rewrite decide_False; [done|]. rewrite in_row by done. lia.
Qed.

Section Backward.
  Context (q k v soft oe : list R) (n ke ve : nat) (masked : bool) (e : attn_err).
  Hypothesis (Hq : length q = n * ke) (Hk : length k = n * ke) (Hv : length v = ve * n) (Hsf : length soft = n * n) (Ho : length oe = n * ve).
  Hypothesis (H1 : length (e_query e) = n * ke) (H2 : length (e_key e) = n * ke) (H3 : length (e_value e) = ve * n) (H4 : length (e_score e) = n * n) (H5 : length (e_soft e) = n * n).
  Lemma bp_run : exists e', self_attention_bp q k v soft oe e n masked ke ve = Some e' /\
    length (e_query e') = n * ke /\ length (e_key e') = n * ke /\ length (e_value e') = ve * n /\
    let u t s := (el (e_soft e) (t * n + s) + sumn ve (fun c => el v (c * n + s) * el oe (t * ve + c)))%R in
    let ds t s := (el (e_score e) (t * n + s) + if decide (s < visible masked n t)%nat then el soft (t * n + s) * (u t s - sumn (visible masked n t) (fun i => u t i * el soft (t * n + i))) else 0)%R in
    (forall c s, c < ve -> s < n -> el (e_value e') (c * n + s) = (el (e_value e) (c * n + s) + sumn n (fun t => el soft (t * n + s) * el oe (t * ve + c)))%R) /\
    (forall t x, t < n -> x < ke -> el (e_query e') (t * ke + x) = (el (e_query e) (t * ke + x) + sumn n (fun s => el k (s * ke + x) * (ds t s / R_sqrt.sqrt (INR ke))))%R) /\
    (forall s x, s < n -> x < ke -> el (e_key e') (s * ke + x) = (el (e_key e) (s * ke + x) + sumn n (fun t => el q (t * ke + x) * (ds t s / R_sqrt.sqrt (INR ke))))%R).
  Proof.
    unfold self_attention_bp.
    match goal with |- context [mbind _ (for_loop n 0 ?b (e_soft e, e_value e))] => 
      assert (HA : Adds2 (n * n) (ve * n) (for_loop n 0 b)
        (fun p => sum2 n ve (fun i j => if decide (i * n <= p < i * n + n)%nat then el v (j * n + (p - i * n)) * el oe (i * ve + j) else 0)%R)
        (fun p => sum2 n ve (fun i j => if decide (j * n <= p < j * n + n)%nat then el soft (i * n + (p - j * n)) * el oe (i * ve + j) else 0)%R)) end.
    { apply (Adds2_loop2 (n * n) (ve * n) n ve 0 0). intros i j Hi Hj. cbn [Nat.add].
      apply (Adds2_body _ _ _ (fun a => additional_mul_value v (j * n) (el oe (i * ve + j)) a (i * n) n) (fun b => additional_mul_value soft (i * n) (el oe (i * ve + j)) b (j * n) n)).
      - intros a b Ha Hb. rewrite (rd_el oe) by nia. done.
      - apply amv_adds; nia.
      - apply amv_adds; nia. }
    rewrite (HA (e_soft e) (e_value e) H5 H3). cbn [mbind option_bind fst snd]. clear HA.
    match goal with |- context [for_loop n 0 _ (e_score e)] => idtac end.
    set (es := imap _ (e_soft e)). set (ev := imap _ (e_value e)).
    assert (Les : length es = n * n) by (unfold es; by rewrite imap_length).
    set (u := fun t s => (el (e_soft e) (t * n + s) + sumn ve (fun c => el v (c * n + s) * el oe (t * ve + c)))%R).
    set (ds := fun t s => (el (e_score e) (t * n + s) + if decide (s < visible masked n t)%nat then el soft (t * n + s) * (u t s - sumn (visible masked n t) (fun i => u t i * el soft (t * n + i)%nat)) else 0)%R).
    assert (Hes : forall t s, t < n -> s < n -> el es (t * n + s) = u t s).
    { intros t s Ht Hs. unfold es. rewrite el_imap by (rewrite H5; by apply flat_lt). unfold u. f_equal.
      apply (sum_row1 n n ve t s (fun i j r => el v (j * n + r) * el oe (i * ve + j))%R); done. }
    match goal with |- context [for_loop n 0 ?b (e_score e)] => set (body := b) end.
    destruct (for_loop_inv (fun i sc => length sc = n * n /\ forall t s, t < n -> s < n -> el sc (t * n + s) = if decide (t < i) then ds t s else el (e_score e) (t * n + s)) body n 0 (e_score e)) as (sc & Esc & Lsc & Hsc).
    { split; [done|]. intros. by rewrite decide_False by lia. }
    { intros i sc Hi (L & G). unfold body.
      pose proof (visible_le masked n i ltac:(lia)) as Hvis.
      assert (Hlen : forall l : list R, length l = n * n -> n <= length (drop (i * n) l)) by (intros l Hl; rewrite drop_length, Hl; nia).
      set (sz := visible masked n i) in *.
      erewrite (at_offset_imap (i * n)).
      3:{ replace (if masked then i + 1 else n) with sz by (unfold sz; destruct masked; cbn; lia).
          pose proof (Hlen soft Hsf). pose proof (Hlen es Les). pose proof (Hlen sc L). rewrite derivative_softmax_run by lia. reflexivity. }
      2:{ nia. }
      eexists. split; [reflexivity|]. rewrite imap_length. split; [done|]. intros t s Ht Hs. rewrite el_imap by (rewrite L; by apply flat_lt). rewrite G by done.
      destruct (decide (t = i)) as [->|Hne].
      - rewrite (decide_True (P := i * n <= i * n + s)) by lia. replace (i * n + s - i * n) with s by lia. rewrite (decide_False (P := i < i)) by lia. rewrite (decide_True (P := i < S i)) by lia.
        unfold ds. fold sz. f_equal. destruct (decide (s < sz)); [|done]. rewrite !el_drop, Hes by lia. do 2 f_equal. apply sumn_ext. intros r Hr. rewrite !el_drop, Hes by lia. done.
      - assert (Hor : t < i \/ i < t) by lia. destruct Hor as [Hlt|Hgt].
        + rewrite (decide_False (P := i * n <= t * n + s)) by nia. rewrite !decide_True by lia. done.
        + rewrite (decide_True (P := i * n <= t * n + s)) by nia. rewrite (decide_False (P := t * n + s - i * n < _)) by nia. rewrite !(decide_False (P := t < _)) by lia. lra. }
    rewrite Esc. cbn [mbind option_bind]. cbn [Nat.add] in Hsc.
    assert (Hds : forall t s, t < n -> s < n -> el sc (t * n + s) = ds t s) by (intros t s Ht Hs; rewrite Hsc by done; by rewrite decide_True).
    match goal with |- context [mbind _ (for_loop n 0 ?b (e_key e, e_query e))] => 
      assert (HA : Adds2 (n * ke) (n * ke) (for_loop n 0 b)
        (fun p => sum2 n n (fun i j => if decide (j * ke <= p < j * ke + ke)%nat then el q (i * ke + (p - j * ke)) * (ds i j / R_sqrt.sqrt (INR ke)) else 0)%R)
        (fun p => sum2 n n (fun i j => if decide (i * ke <= p < i * ke + ke)%nat then el k (j * ke + (p - i * ke)) * (ds i j / R_sqrt.sqrt (INR ke)) else 0)%R)) end.
    { apply (Adds2_loop2 (n * ke) (n * ke) n n 0 0). intros i j Hi Hj. cbn [Nat.add].
      apply (Adds2_body _ _ _ (fun a => additional_mul_value q (i * ke) (ds i j / R_sqrt.sqrt (INR ke)) a (j * ke) ke) (fun b => additional_mul_value k (j * ke) (ds i j / R_sqrt.sqrt (INR ke)) b (i * ke) ke)).
      - intros a b Ha Hb. rewrite (rd_el sc) by (rewrite Lsc; by apply flat_lt). cbn [mbind option_bind fst snd]. rewrite Hds by done. done.
      - apply amv_adds; nia.
      - apply amv_adds; nia. }
    rewrite (HA (e_key e) (e_query e) H2 H1). cbn [mbind option_bind fst snd]. clear HA.
    eexists. split; [reflexivity|]. cbn [e_query e_key e_value]. unfold ev. rewrite !imap_length. split; [done|]. split; [done|]. split; [done|].
    cbv zeta. split; [|split].
    - intros c s Hc Hs. rewrite el_imap by (rewrite H3; by apply flat_lt). f_equal.
      apply (sum_row2 n n ve c s (fun i j r => el soft (i * n + r) * el oe (i * ve + j))%R); done.
    - intros t x Ht Hx. rewrite el_imap by (rewrite H1; by apply flat_lt). f_equal.
      apply (sum_row1 ke n n t x (fun i j r => el k (j * ke + r) * (ds i j / R_sqrt.sqrt (INR ke)))%R); done.
    - intros s x Hs Hx. rewrite el_imap by (rewrite H2; by apply flat_lt). f_equal.
      apply (sum_row2 ke n n s x (fun i j r => el q (i * ke + r) * (ds i j / R_sqrt.sqrt (INR ke)))%R); done.
  Qed.
End Backward.
