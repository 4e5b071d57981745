(** dataset statistics, group normalization, local response normalization, score normalization *)
From Verif Require Import BaseLemmas NumLib3 Attn_Model Norm_Model Norm_Spec Norm_Proofs Norm_Channel.
Open Scope R_scope.

Lemma el_map_zero {A} (l : list A) j : el (map (fun _ => 0) l) j = 0.
Proof. unfold el. revert j. induction l as [|x l IH]; intros [|j]; cbn; [done|done|done|apply IH]. Qed.
Lemma nth_map_row (f : list R -> list R) (m : list (list R)) i : f [] = [] -> nth i (map f m) [] = f (nth i m []).
Proof. intros H. rewrite <- H at 1. apply map_nth. Qed.
Lemma shape_map_zero m a b : shape m a b -> shape (map (map (fun _ => 0)) m) a b.
Proof. intros [L S]. split; [by rewrite map_length|]. intros i Hi. rewrite nth_map_row by done. rewrite map_length. by apply S. Qed.
Lemma sum1D_run a acc n : (n <= length a)%nat -> length acc = n -> exists r, sum1D_acc a acc n = Some r /\ length r = n /\ forall j, (j < n)%nat -> el r j = el acc j + el a j.
Proof.
  intros La Lc. assert (HA : Adds n (fun l => sum1D_acc a l n) (fun k => sumn n (fun i => if decide (k = i) then el a i else 0))).
  { unfold sum1D_acc. apply (Adds_loop n n _ (fun i k => if decide (k = i) then el a i else 0)). intros i Hi. eapply Adds_body; cycle 1; [apply (Adds_at n i (el a i) Hi)|]. intros l Hl. rewrite (rd_el a) by lia. done. }
  eexists. split; [apply (HA acc Lc)|]. rewrite imap_length. split; [done|]. intros j Hj. rewrite el_imap by lia. f_equal.
  rewrite (sumn_single n j); [by rewrite decide_True|done|]. intros i Hi Hne. by rewrite decide_False by done.
Qed.
Lemma copy0_run src dst n : length src = n -> length dst = n -> copy_array src 0 dst 0 n = Some src.
Proof.
  intros L1 L2. unfold copy_array. destruct (fill1 n n 0 (fun i d => x ← rd src (0 + i); wr d (0 + i) x) (fun r => r) (fun r => el src r) dst) as (d & E & Ld & G & _); [|done|done|done|].
  - intros r l Hr Hl. cbn [Nat.add]. rewrite (rd_el src) by lia. done.
  - rewrite E. f_equal. apply list_eq. intros i. destruct (decide (i < n)%nat).
    + rewrite !lookup_el by lia. by rewrite G.
    + rewrite !lookup_ge_None_2 by lia. done.
Qed.

Theorem final_run input nv N mini eps b : (0 < mini)%nat -> (0 < nv)%nat -> (nv mod mini = 0)%nat -> shape input nv N ->
  length (bn_gamma b) = N -> length (bn_beta b) = N -> length (bn_mean_ b) = N -> length (bn_var_ b) = N -> shape (bn_temp b) mini N -> shape (bn_outputs b) mini N ->
  exists b', batch_normalization_final_mean_variance input nv N mini eps b = Some b' /\
    forall j, (j < N)%nat -> el (bn_mean_ b') j = batch_mean (mel input) mini j /\ el (bn_var_ b') j = INR mini / INR (mini - 1) * batch_variance (mel input) mini j.
Proof.
  intros Hm Hnv Hmod Hs Lg Lb Lm Lv St So. unfold batch_normalization_final_mean_variance. rewrite decide_False by lia.
  assert (Hq : (0 < nv / mini)%nat). { apply Nat.div_str_pos. split; [lia|]. pose proof (Nat.div_mod nv mini ltac:(lia)) as D. destruct (nv / mini)%nat; lia. }
  assert (Hle : (mini <= nv)%nat). { pose proof (Nat.div_mod nv mini ltac:(lia)) as D. nia. }
  set (q := (nv / mini)%nat) in *.
  set (body := fun (i : nat) (st : bn * (list R * list R)) =>
         let b := reset_bn st.1 in
         r ← batch_normalization_feed_forward mini input (bn_temp b) N (bn_gamma b) (bn_beta b) (bn_mean_ b) (bn_var_ b) (bn_outputs b) eps;
         m ← sum1D_acc r.1.1.1 st.2.1 N; v ← sum1D_acc r.1.1.2 st.2.2 N;
         Some (Bn (bn_gamma b) (bn_beta b) r.1.1.1 r.1.1.2 r.1.2 r.2 (bn_epsilon b), (m, v))).
  destruct (for_loop_inv (fun i (st : bn * (list R * list R)) => length (bn_gamma st.1) = N /\ length (bn_beta st.1) = N /\ length (bn_mean_ st.1) = N /\ length (bn_var_ st.1) = N /\ shape (bn_temp st.1) mini N /\ shape (bn_outputs st.1) mini N /\
      length st.2.1 = N /\ length st.2.2 = N /\ forall j, (j < N)%nat -> el st.2.1 j = INR i * batch_mean (mel input) mini j /\ el st.2.2 j = INR i * batch_variance (mel input) mini j) body q 0 (b, (replicate N 0, replicate N 0))) as ([b1 [m1 v1]] & E & A1 & A2 & A3 & A4 & A5 & A6 & A7 & A8 & A9).
  - repeat (split; [done|]). cbn [fst snd]. rewrite !replicate_length. do 2 (split; [done|]). intros j Hj. rewrite !el_replicate. cbn. lra.
  - intros i [b1 [m1 v1]] Hi (A1 & A2 & A3 & A4 & A5 & A6 & A7 & A8 & A9). cbn [fst snd] in *. unfold body. cbv zeta. cbn [fst snd].
    destruct (bn_ff_run nv mini input (bn_temp (reset_bn b1)) N (bn_gamma (reset_bn b1)) (bn_beta (reset_bn b1)) (bn_mean_ (reset_bn b1)) (bn_var_ (reset_bn b1)) (bn_outputs (reset_bn b1)) eps) as (m & v & t & o & R & L1 & L2 & S1 & S2 & G & _); cbn [bn_temp bn_gamma bn_beta bn_mean_ bn_var_ bn_outputs reset_bn]; try done; try (by rewrite map_length); try (by apply shape_map_zero); try (apply el_map_zero).
    cbn [bn_temp bn_gamma bn_beta bn_mean_ bn_var_ bn_outputs reset_bn] in R. rewrite R. cbn [mbind option_bind fst snd].
    destruct (sum1D_run m m1 N ltac:(lia) A7) as (m2 & E1 & L3 & G1). destruct (sum1D_run v v1 N ltac:(lia) A8) as (v2 & E2 & L4 & G2). rewrite E1. cbn [mbind option_bind]. rewrite E2. cbn [mbind option_bind].
    eexists. split; [done|]. cbn [fst snd bn_temp bn_gamma bn_beta bn_mean_ bn_var_ bn_outputs]. repeat (split; [done|]).
    intros j Hj. rewrite G1, G2 by done. destruct (A9 j Hj) as [-> ->]. destruct (G j Hj) as [-> ->]. rewrite S_INR. split; ring.
  - assert (Hcalc : for_loop q 0 body (b, (replicate N 0, replicate N 0)) = Some (b1, (m1, v1))) by exact E. rewrite Hcalc. cbn [mbind option_bind fst snd] in *.
    rewrite (for_loop_pair (fun i p => x ← rd p i; wr p i (x / INR q)%R) (fun i p => y ← rd p i; wr p i (INR mini / INR (mini - 1) * y / INR q)%R)); cycle 1.
    { intros i p1 p2 Hi. cbn [fst snd]. destruct (rd p1 i); cbn [mbind option_bind]; [|done]. destruct (wr p1 i _); cbn [mbind option_bind]; [|done]. destruct (rd p2 i); cbn [mbind option_bind]; done. }
    assert (HP : forall (f : R -> R), Pointwise N (for_loop N 0 (fun i p => x ← rd p i; wr p i (f x))) (fun k x => f x)).
    { intros f. eapply Pointwise_ext; [apply (Pointwise_loop N N 0 _ (fun _ x => f x)); [lia|]|intros k x Hk; cbv beta; by rewrite decide_True by lia].
      intros i Hi l Hl. rewrite (rd_el l) by lia. cbn [mbind option_bind]. rewrite (Pointwise_wr N i _ Hi l Hl). f_equal. apply imap_ext_lt. intros k x Hk Hx. cbn [Nat.add]. destruct (decide (k = i)) as [->|]; [|done]. f_equal. by apply el_lookup. }
    rewrite (HP (fun x => x / INR q) m1 A7). cbn [mbind option_bind]. rewrite (HP (fun y => INR mini / INR (mini - 1) * y / INR q) v1 A8). cbn [mbind option_bind fst snd].
    rewrite copy0_run by (rewrite ?imap_length; done). cbn [mbind option_bind]. rewrite copy0_run by (rewrite ?imap_length; done). cbn [mbind option_bind].
    eexists. split; [done|]. cbn [bn_mean_ bn_var_]. intros j Hj. rewrite !el_imap by lia. destruct (A9 j Hj) as [-> ->]. rewrite Nat.add_0_l. assert (INR q <> 0) by (apply not_0_INR; lia). unfold Rdiv. split.
    + rewrite (Rmult_comm (INR q)), Rmult_assoc, Rinv_r by done. ring.
    + rewrite !Rmult_assoc. rewrite (Rmult_comm (batch_variance _ _ _)), <- (Rmult_assoc (INR q)). rewrite Rinv_r by done. ring.
Qed.

(** partial correctness of loops *)
Lemma for_loop_pres {S} (P : S -> Prop) (body : nat -> S -> option S) cnt : forall i0 s s', (forall i s s', (i0 <= i < i0 + cnt)%nat -> body i s = Some s' -> P s -> P s') -> P s -> for_loop cnt i0 body s = Some s' -> P s'.
Proof.
  induction cnt as [|c IH]; intros i0 s s' H H0 E; cbn [for_loop] in E; [by injection E as <-|].
  apply bind_Some in E as (s1 & E1 & E). eapply (IH (Datatypes.S i0)); [|eapply H; [|exact E1|exact H0]; lia|exact E]. intros i a a' Hi. apply H. lia.
Qed.
Lemma for_loop_iter {S} (body : nat -> S -> option S) cnt : forall i0 s s' i, for_loop cnt i0 body s = Some s' -> (i0 <= i < i0 + cnt)%nat -> exists a a', body i a = Some a'.
Proof.
  induction cnt as [|c IH]; intros i0 s s' i E Hi; [lia|]. cbn [for_loop] in E. apply bind_Some in E as (s1 & E1 & E). destruct (decide (i = i0)) as [->|]; [eauto|]. eapply IH; [exact E|lia].
Qed.

(** a channel normalization that returns writes only below off + channels*rows*cols *)
Lemma channel_frame batch input off temp gamma beta mean var outputs eps rp cp rows cols used m v t o nch : enough used batch -> (forall ii, (ii < batch)%nat -> (chan used ii < nch)%nat) ->
  channel_normalization_feed_forward batch input off temp gamma beta mean var outputs eps rp cp rows cols used = Some (m, v, t, o) ->
  forall q, (off + nch * rows * cols <= q)%nat -> el o q = el outputs q.
Proof.
  intros He Hch E q Hq. unfold channel_normalization_feed_forward in E. cbv zeta in E.
  apply bind_Some in E as (m' & _ & E). apply bind_Some in E as (v' & _ & E). apply bind_Some in E as ([t' o'] & E & E2). injection E2 as <- <- <- <-.
  rewrite used_loop_all in E by done. cbn [snd].
  assert (H : el (snd (t', o')) q = el outputs q); [|exact H]. eapply (for_loop_pres (fun st => el st.2 q = el outputs q)); [| |exact E]; [|reflexivity].
  intros ii s s' Hii Es Hs. eapply (for_loop_pres (fun st => el st.2 q = el outputs q)); [|exact Hs|exact Es].
  intros j s1 s1' Hj Ej Hs1. eapply (for_loop_pres (fun st => el st.2 q = el outputs q)); [|exact Hs1|exact Ej].
  intros k s2 s2' Hk Ek Hs2. cbv beta zeta in Ek. do 5 (apply bind_Some in Ek as (? & _ & Ek)). apply bind_Some in Ek as (t2 & _ & Ek). apply bind_Some in Ek as (o2 & Eo & Ek). injection Ek as <-. cbn [snd].
  apply wr_inv in Eo as [_ ->]. rewrite el_upd_ne; [exact Hs2|]. intros ->. pose proof (Hch ii ltac:(lia)) as Hc.
  assert (j * cols + k < rows * cols)%nat by (apply flat_lt; lia). assert (chan used ii * rows * cols + rows * cols <= nch * rows * cols)%nat by (rewrite <- !Nat.mul_assoc; nia). lia.
Qed.
(** a used channel whose index is not below the number of temp_vectors: undefined behaviour *)
Lemma channel_oob batch input off temp gamma beta mean var outputs eps rp cp rows cols used ii : enough used batch -> (ii < batch)%nat -> (length temp <= chan used ii)%nat ->
  (0 < rows - rp - rp)%nat -> (0 < cols - cp - cp)%nat -> channel_normalization_feed_forward batch input off temp gamma beta mean var outputs eps rp cp rows cols used = None.
Proof.
  intros He Hii Hc Hr Hcc. unfold channel_normalization_feed_forward. cbv zeta.
  destruct (used_loop used batch _ _ 0 0 mean) as [m|]; [|done]. cbn [mbind option_bind]. destruct (used_loop used batch _ _ 0 0 var) as [v|]; [|done]. cbn [mbind option_bind].
  destruct (used_loop used batch _ _ 0 0 (temp, outputs)) as [st|] eqn:E; [|done]. exfalso. rewrite used_loop_all in E by done.
  assert (Hpre : exists s a', (length s.1 = length temp) /\ for_loop (rows - rp - rp) rp (fun j => for_loop (cols - cp - cp) cp (fun k (st : list (list R) * list R) =>
           x ← rd input (off + (chan used ii * rows * cols + j * cols + k)); mu ← rd m ((j - rp) * (cols - 2 * cp) + k - cp); v ← rd v ((j - rp) * (cols - 2 * cp) + k - cp);
           g ← rd gamma ((j - rp) * (cols - 2 * cp) + k - cp); b ← rd beta ((j - rp) * (cols - 2 * cp) + k - cp);
           let z := ((x - mu) / R_sqrt.sqrt (v + eps))%R in
           t ← mwr st.1 (chan used ii) ((j - rp) * (cols - 2 * cp) + k - cp) z; o ← wr st.2 (off + (chan used ii * rows * cols + j * cols + k)) (z * g + b)%R; Some (t, o))) s = Some a').
  { assert (Hit : forall (P : list (list R) * list R -> Prop) body cnt i0 s s' i, for_loop cnt i0 body s = Some s' -> (forall i s s', body i s = Some s' -> P s -> P s') -> P s -> (i0 <= i < i0 + cnt)%nat -> exists a a', P a /\ body i a = Some a').
    { intros P body cnt. induction cnt as [|c IH]; intros i0 s s' i E1 Hp HP Hi; [lia|]. cbn [for_loop] in E1. apply bind_Some in E1 as (s1 & E1 & E2). destruct (decide (i = i0)) as [->|]; [eauto|]. eapply IH; [exact E2|exact Hp|by eapply Hp|lia]. }
    eapply (Hit (fun s => length s.1 = length temp) _ _ _ _ _ ii) in E as (a & a' & H1 & H2); [exists a, a'; split; [exact H1|exact H2]| |done|lia].
    intros i s s' Es Hs. eapply (for_loop_pres (fun st => length st.1 = length temp)); [|exact Hs|exact Es].
    intros j s1 s1' Hj Ej Hs1. eapply (for_loop_pres (fun st => length st.1 = length temp)); [|exact Hs1|exact Ej].
    intros k s2 s2' Hk Ek Hs2. cbv beta zeta in Ek. do 5 (apply bind_Some in Ek as (? & _ & Ek)). apply bind_Some in Ek as (t2 & Et & Ek). apply bind_Some in Ek as (o2 & _ & Ek). injection Ek as <-. cbn [fst].
    unfold mwr in Et. apply bind_Some in Et as (r1 & _ & Et). apply bind_Some in Et as (r2 & _ & Et). apply wr_inv in Et as [_ ->]. by rewrite insert_length. }
  destruct Hpre as (s & a' & Hl & E1).
  replace (rows - rp - rp)%nat with (S (rows - rp - rp - 1)) in E1 by lia. replace (cols - cp - cp)%nat with (S (cols - cp - cp - 1)) in E1 by lia. cbn [for_loop] in E1.
  apply bind_Some in E1 as (s1 & E1 & _). apply bind_Some in E1 as (s2 & E1 & _). do 5 (apply bind_Some in E1 as (? & _ & E1)). apply bind_Some in E1 as (t2 & E1 & _).
  unfold mwr in E1. apply bind_Some in E1 as (r1 & E1 & _). unfold rd in E1. apply lookup_lt_Some in E1. lia.
Qed.

(** group normalization, all channels in use *)
Lemma positions_all n i : positions (replicate n true) i = seq i n.
Proof. revert i. induction n as [|n IH]; intros i; cbn [replicate positions seq]; [done|]. by rewrite IH. Qed.
Lemma chan_all n ii : (ii < n)%nat -> chan (Some (replicate n true)) ii = ii.
Proof. intros H. cbn [chan]. rewrite positions_all. rewrite seq_nth by done. done. Qed.
Lemma enough_all n batch : (batch <= n)%nat -> enough (Some (replicate n true)) batch.
Proof. intros H. cbn [enough]. rewrite positions_all, seq_length. done. Qed.
Lemma gn_skip_all n : forall m k fuel s, gn_skip (replicate n true) fuel k m = Some s -> s = 0%nat.
Proof.
  induction m as [|m IH]; intros k fuel s E; [destruct fuel; cbn in E; by injection E as <-|]. destruct fuel as [|f]; [done|]. cbn [gn_skip] in E. unfold rd in E. apply bind_Some in E as (u & Eu & E).
  apply lookup_replicate in Eu as [-> _]. by eapply IH.
Qed.
Lemma gn_skip_all_run n : forall m k fuel, (k + m <= n)%nat -> (m <= fuel)%nat -> gn_skip (replicate n true) fuel k m = Some 0%nat.
Proof.
  induction m as [|m IH]; intros k fuel H Hf; [by destruct fuel|]. destruct fuel as [|f]; [lia|]. cbn [gn_skip]. unfold rd. rewrite lookup_replicate_2 by lia. cbn [mbind option_bind]. apply IH; lia.
Qed.
Lemma gn_frame tensor rows cols g stride pi pj nc nb q : (g <= nc)%nat -> forall fuel j bns post r,
  gn_loop tensor rows cols g stride pi pj (replicate nc true) nb fuel (j * stride) j bns post = Some r -> (nb * stride + g * rows * cols <= q + stride)%nat -> el r.2 q = el post q.
Proof.
  intros Hg. induction fuel as [|f IH]; intros j bns post r E Hq; cbn [gn_loop] in E; destruct (decide (nb <= j)%nat) as [Hle|Hlt]; try (by injection E as <-); [done|].
  apply bind_Some in E as (u & Eu & E). unfold rd in Eu. apply lookup_replicate in Eu as [-> _].
  apply bind_Some in E as (b & _ & E). apply bind_Some in E as ([[[m v] t] o] & Ec & E). apply bind_Some in E as (bns' & _ & E). apply bind_Some in E as (s & Es & E). apply gn_skip_all in Es as ->.
  rewrite Nat.add_0_r in E. replace (j * stride + stride)%nat with (S j * stride)%nat in E by lia. apply IH in E; [|done]. rewrite E. cbn [snd].
  eapply (channel_frame g _ _ _ _ _ _ _ _ _ _ _ _ _ _ _ _ _ _ g); [apply (enough_all nc g Hg)| |exact Ec|]; [intros ii Hii; rewrite chan_all by lia; exact Hii|]. nia.
Qed.
Lemma filter_true_replicate n m : (n <= m)%nat -> length (filter (fun b : bool => b = true) (take n (replicate m true))) = n.
Proof. intros H. rewrite take_replicate, Nat.min_l by done. clear H. induction n as [|n IH]; [done|]. cbn [replicate]. rewrite filter_cons_True by done. cbn [length]. by rewrite IH. Qed.

(** local response normalization of a vector *)
Lemma rd_rep n i : (i < n)%nat -> rd (replicate n true) i = Some true.
Proof. intros H. by apply lookup_replicate_2. Qed.
Lemma lrn_low_all n : forall h i low, (i <= n)%nat -> (h <= i)%nat -> lrn_low (replicate n true) i low h = Some (if decide (h = 0)%nat then low else i - h)%nat.
Proof.
  induction h as [|h IH]; intros i low Hi Hh; [by destruct i|]. destruct i as [|i]; [lia|]. cbn [lrn_low]. unfold rd. rewrite lookup_replicate_2 by lia. cbn [mbind option_bind]. rewrite IH by lia.
  f_equal. rewrite (decide_False (P := S h = 0%nat)) by lia. destruct (decide (h = 0)%nat); lia.
Qed.
Lemma lrn_up_all n : forall h fuel i up, (h <= fuel)%nat -> (i + h <= n)%nat -> lrn_up (replicate n true) n fuel i up h = Some (if decide (h = 0)%nat then up else i + h - 1)%nat.
Proof.
  induction h as [|h IH]; intros fuel i up Hf Hi; [by destruct fuel|]. destruct fuel as [|f]; [lia|]. cbn [lrn_up]. rewrite decide_True by lia. unfold rd. rewrite lookup_replicate_2 by lia. cbn [mbind option_bind]. rewrite IH by lia.
  f_equal. rewrite (decide_False (P := S h = 0%nat)) by lia. destruct (decide (h = 0)%nat); lia.
Qed.
Lemma lrn_bounds_all n ac h : (ac < n)%nat -> lrn_bounds (replicate n true) ac n h = Some (ac - h, if decide (n - 1 < ac + h) then n - 1 else ac + h)%nat.
Proof.
  intros Hac. unfold lrn_bounds. assert (E1 : (if decide (ac < h)%nat then Some 0%nat else lrn_low (replicate n true) ac ac h) = Some (ac - h)%nat).
  { destruct (decide (ac < h)%nat); [f_equal; lia|]. rewrite lrn_low_all by lia. f_equal. destruct (decide (h = 0)%nat); lia. }
  rewrite E1. cbn [mbind option_bind]. destruct (decide (n - 1 < ac + h)%nat); [done|]. rewrite lrn_up_all by lia. cbn [mbind option_bind]. do 2 f_equal. destruct (decide (h = 0)%nat); lia.
Qed.
Lemma at11 c : (c * 1 * 1 + 0 * 1 + 0 = c)%nat. Proof. lia. Qed.
Lemma window_sum n ac h (f : nat -> R) : (ac < n)%nat -> let up := (if decide (n - 1 < ac + h) then n - 1 else ac + h)%nat in
  sumn (up + 1 - (ac - h)) (fun d => f (ac - h + d)%nat) = sumn n (fun c => if decide (c <= ac + h /\ ac <= c + h)%nat then f c else 0).
Proof.
  intros Hac up. assert (Hup : (up < n)%nat /\ (ac <= up)%nat /\ forall c, (c < n)%nat -> (c <= ac + h)%nat <-> (c <= up)%nat) by (unfold up; destruct (decide _); repeat split; lia).
  destruct Hup as (U1 & U2 & U3). rewrite <- (sumn_window n (ac - h) (up + 1 - (ac - h)) f) by lia. apply sumn_ext. intros c Hc. specialize (U3 c Hc).
  destruct (decide (ac - h <= c < ac - h + (up + 1 - (ac - h)))%nat); [rewrite decide_True by lia|rewrite decide_False by lia]; done.
Qed.
Lemma lrn_sum_run x n h alpha k ac : length x = n -> (ac < n)%nat -> let up := (if decide (n - 1 < ac + h) then n - 1 else ac + h)%nat in
  lrn_sum x (replicate n true) (ac - h) up (fun c => c * 1 * 1 + 0 * 1 + 0)%nat alpha k = Some (lrn_scale x n h alpha k ac).
Proof.
  intros Lx Hac up. unfold lrn_sum. rewrite (for_loop_sum _ _ (fun d => el x (ac - h + d) ^ 2)).
  - cbn [mbind option_bind]. rewrite Rplus_0_l. f_equal. unfold lrn_scale. f_equal. f_equal. apply (window_sum n ac h (fun c => el x c ^ 2)). done.
  - intros d Hd. assert (Hup : (up < n)%nat) by (unfold up; destruct (decide _); lia). unfold rd. rewrite lookup_replicate_2 by lia. cbn [mbind option_bind]. rewrite at11. change (x !! (ac - h + d)%nat) with (rd x (ac - h + d)). rewrite rd_el by lia. cbn [mbind option_bind]. f_equal. ring.
Qed.
Lemma lrn_ff_run x o n h beta alpha k : length x = n -> length o = n ->
  exists o', local_response_normalization_feed_forward_fcl x o n h beta alpha k (replicate n true) = Some o' /\ length o' = n /\ forall i, (i < n)%nat -> el o' i = lrn x n h beta alpha k i.
Proof.
  intros Lx Lo. unfold local_response_normalization_feed_forward_fcl.
  destruct (fill1 n n 0 (fun i o => local_response_normalization_feed_forward x o i 0 0 n 1 1 h beta alpha k (replicate n true)) (fun r => r) (fun r => lrn x n h beta alpha k r) o) as (o' & E & L' & G & _); [|done|done|done|by exists o'].
  intros r l Hr Hl. cbn [Nat.add]. unfold local_response_normalization_feed_forward. rewrite rd_rep by lia. cbn [mbind option_bind negb]. rewrite lrn_bounds_all by done. cbn [mbind option_bind fst snd].
  rewrite lrn_sum_run by done. cbn [mbind option_bind]. rewrite at11. rewrite rd_el by lia. done.
Qed.
(** what the backward pass adds to entry c: the error of entry c times the derivative of every output i in its window *)
Lemma lrn_bp_run x e te n h beta alpha k : length x = n -> length e = n -> length te = n ->
  exists te', local_response_normalization_back_prop_fcl x te e n h beta alpha k (replicate n true) = Some te' /\ length te' = n /\
    forall c, (c < n)%nat -> el te' c = el te c + sumn n (fun i => if decide (c <= i + h /\ i <= c + h)%nat then
      el e c * (if decide (c = i) then 1 / Rpower (lrn_scale x n h alpha k i) beta - 2 * beta * alpha * el x c * el x c / Rpower (lrn_scale x n h alpha k i) (beta + 1)
                else - (2 * beta * alpha * el x c * el x i / Rpower (lrn_scale x n h alpha k i) (beta + 1))) else 0).
Proof.
  intros Lx Le Lt. set (D := fun i c => if decide (c <= i + h /\ i <= c + h)%nat then
      el e c * (if decide (c = i) then 1 / Rpower (lrn_scale x n h alpha k i) beta - 2 * beta * alpha * el x c * el x c / Rpower (lrn_scale x n h alpha k i) (beta + 1)
                else - (2 * beta * alpha * el x c * el x i / Rpower (lrn_scale x n h alpha k i) (beta + 1))) else 0).
  assert (HA : Adds n (fun te => local_response_normalization_back_prop_fcl x te e n h beta alpha k (replicate n true)) (fun c => sumn n (fun i => D i c))).
  { unfold local_response_normalization_back_prop_fcl. apply (Adds_loop n n _ D). intros i Hi.
    set (up := (if decide (n - 1 < i + h) then n - 1 else i + h)%nat). assert (Hup : (up < n)%nat /\ (i <= up)%nat /\ forall c, (c < n)%nat -> (c <= i + h)%nat <-> (c <= up)%nat) by (unfold up; destruct (decide _); repeat split; lia). destruct Hup as (U1 & U2 & U3).
    set (F := fun c => el e c * (if decide (c = i) then 1 / Rpower (lrn_scale x n h alpha k i) beta - 2 * beta * alpha * el x c * el x c / Rpower (lrn_scale x n h alpha k i) (beta + 1)
                else - (2 * beta * alpha * el x c * el x i / Rpower (lrn_scale x n h alpha k i) (beta + 1)))).
    eapply Adds_body; cycle 1.
    - eapply Adds_ext; [apply (Adds_loop_from n (up + 1 - (i - h)) (i - h) (fun c te => addat te c (F c)) (fun c q => if decide (q = c) then F c else 0))|].
      + intros c Hc. apply Adds_at. lia.
      + intros c Hc. cbv beta. pose proof (window_sum n i h (fun z => if decide (c = z) then F z else 0) Hi) as Ew. cbv zeta beta in Ew. fold up in Ew. rewrite Ew. rewrite (sumn_single n c); [|done|].
        * unfold D. destruct (decide (c <= i + h /\ i <= c + h)%nat); [rewrite (decide_True (P := c = c)) by done; done|done].
        * intros z Hz Hne. rewrite (decide_False (P := c = z)) by done. by destruct (decide (z <= i + h /\ i <= z + h)%nat).
    - intros l Hl. unfold local_response_normalization_back_prop. rewrite rd_rep by lia. cbn [mbind option_bind negb]. rewrite lrn_bounds_all by done. cbn [mbind option_bind fst snd]. fold up.
      rewrite lrn_sum_run by done. cbn [mbind option_bind]. cbv zeta. apply for_loop_ext. intros c s Hc. rewrite rd_rep by lia. cbn [mbind option_bind negb]. rewrite !at11. rewrite !rd_el by lia. cbn [mbind option_bind]. unfold F. by destruct (decide (c = i)). }
  eexists. split; [apply (HA te Lt)|]. rewrite imap_length. split; [done|]. intros c Hc. rewrite el_imap by lia. done.
Qed.

(** score normalization *)
Lemma normalize_scores_run s n : length s = n -> (forall i, (i < n)%nat -> -99999999 <= el s i <= 999999999) -> (0 < n)%nat ->
  exists s' mn mx, normalize_scores s n = Some s' /\ length s' = n /\ (forall i, (i < n)%nat -> mn <= el s i <= mx) /\ (exists i, (i < n)%nat /\ el s i = mn) /\ (exists i, (i < n)%nat /\ el s i = mx) /\
    forall i, (i < n)%nat -> el s' i = (el s i - mn) / (mx - mn).
Proof.
  intros Ls Hr Hn. unfold normalize_scores.
  match goal with |- context [for_loop n 0 ?b (?a0, ?b0)] => destruct (for_loop_inv (fun i (mm : R * R) => (forall k, (k < i)%nat -> mm.1 <= el s k <= mm.2) /\ ((i = 0%nat /\ mm.1 = 999999999 /\ mm.2 = -99999999) \/ ((exists k, (k < i)%nat /\ el s k = mm.1) /\ (exists k, (k < i)%nat /\ el s k = mm.2)))) b n 0 (a0, b0)) as ([mn mx] & E & H1 & H2) end.
  - split; [intros; lia|]. left. done.
  - intros i [mn mx] Hi [H1 H2]. cbn [fst snd] in *. rewrite (rd_el s) by lia. cbn [mbind option_bind]. eexists. split; [done|]. cbn [fst snd]. pose proof (Hr i ltac:(lia)) as Hri.
    split.
    + intros k Hk. destruct (decide (k = i)) as [->|]; [destruct (decide (el s i < mn)), (decide (el s i > mx)); lra|]. specialize (H1 k ltac:(lia)). destruct (decide (el s i < mn)), (decide (el s i > mx)); lra.
    + right. destruct H2 as [(-> & -> & ->)|[(a & Ha & Ea) (c & Hc & Ec)]].
      * split; exists 0%nat; (split; [lia|]); destruct (decide _); lra.
      * split; [destruct (decide (el s i < mn)); [exists i; split; [lia|done]|exists a; split; [lia|done]]|destruct (decide (el s i > mx)); [exists i; split; [lia|done]|exists c; split; [lia|done]]].
  - rewrite E. cbn [mbind option_bind fst snd] in *. destruct H2 as [(H0 & _)|[(a & Ha & Ea) (c & Hc & Ec)]]; [lia|].
    assert (HP : Pointwise n (for_loop n 0 (fun i s => x ← rd s i; wr s i ((x - mn) / (mx - mn))%R)) (fun k x => (x - mn) / (mx - mn))).
    { eapply Pointwise_ext; [apply (Pointwise_loop n n 0 _ (fun _ x => (x - mn) / (mx - mn))); [lia|]|intros k x Hk; cbv beta; by rewrite decide_True by lia].
      intros i Hi l Hl. rewrite (rd_el l) by lia. cbn [mbind option_bind]. rewrite (Pointwise_wr n i _ Hi l Hl). f_equal. apply imap_ext_lt. intros k x Hk Hx. cbn [Nat.add]. destruct (decide (k = i)) as [->|]; [|done]. do 2 f_equal. by apply el_lookup. }
    eexists _, mn, mx. split; [apply (HP s Ls)|]. rewrite imap_length. split; [done|]. split; [intros i Hi; apply H1; lia|]. split; [exists a; split; [lia|done]|]. split; [exists c; split; [lia|done]|].
    intros i Hi. rewrite el_imap by lia. done.
Qed.
