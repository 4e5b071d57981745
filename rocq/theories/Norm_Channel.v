(** channel and group normalization, local response normalization, scores *)
From Verif Require Import BaseLemmas NumLib3 Attn_Model Norm_Model Norm_Spec Norm_Proofs.
Open Scope R_scope.

Lemma for_loop_shift {S} (body : nat -> S -> option S) cnt i0 s : for_loop cnt i0 body s = for_loop cnt 0 (fun i => body (i0 + i)%nat) s.
Proof.
  assert (H : forall cnt a s, for_loop cnt (i0 + a) body s = for_loop cnt a (fun i => body (i0 + i)%nat) s).
  { clear cnt s. induction cnt as [|c IH]; intros a s; cbn [for_loop]; [done|]. destruct (body (i0 + a)%nat s) as [s'|]; cbn [mbind option_bind]; [|done]. rewrite <- IH. f_equal. lia. }
  rewrite <- (H cnt 0%nat s). f_equal. lia.
Qed.
Lemma Pointwise_loop2 n R C i0 j0 body (g : nat -> nat -> Rdefinitions.R -> Rdefinitions.R) : (R * C <= n)%nat ->
  (forall r s, (r < R)%nat -> (s < C)%nat -> Pointwise n (body (i0 + r)%nat (j0 + s)%nat) (fun k x => if decide (k = r * C + s)%nat then g r s x else x)) ->
  Pointwise n (for_loop R i0 (fun i => for_loop C j0 (body i))) (fun k x => if decide (k < R * C)%nat then g (k / C)%nat (k mod C)%nat x else x).
Proof.
  intros Hn H l Hl. rewrite for_loop_shift.
  assert (Hgen : forall m, (m <= R)%nat -> Pointwise n (for_loop m 0 (fun i => for_loop C j0 (body (i0 + i)%nat))) (fun k x => if decide (k < m * C)%nat then g (k / C)%nat (k mod C)%nat x else x)); [|by apply Hgen].
  induction m as [|m IH]; intros Hm l' Hl'.
  - cbn [for_loop]. f_equal. symmetry. etransitivity; [|apply imap_id]. apply imap_ext_lt. intros k x Hk _. rewrite decide_False by lia. done.
  - rewrite for_loop_S_r. rewrite (IH ltac:(lia) l' Hl'). cbn [mbind option_bind]. rewrite Nat.add_0_l. rewrite for_loop_shift.
    rewrite (Pointwise_loop n C (m * C) (fun s => body (i0 + m)%nat (j0 + s)%nat) (g m)).
    + rewrite imap_imap. f_equal. apply imap_ext_lt. intros k x Hk _.
      destruct (decide (m * C <= k < m * C + C)%nat) as [Hin|Hout].
      * rewrite (decide_True (P := (k < S m * C)%nat)) by lia. rewrite (decide_False (P := (k < m * C)%nat)) by lia.
        replace k with (m * C + (k - m * C))%nat at 2 3 by lia. rewrite flat_div, flat_mod by lia. done.
      * destruct (decide (k < m * C)%nat); [rewrite decide_True by lia|rewrite decide_False by lia]; done.
    + assert (m * C + C <= R * C)%nat by nia. lia.
    + intros s Hs. apply H; [lia|done].
    + by rewrite imap_length.
Qed.

(** which channels are visited *)
Fixpoint positions (l : list bool) (i : nat) : list nat :=
  match l with [] => [] | b :: l' => if b then i :: positions l' (S i) else positions l' (S i) end.
Definition chan (used : option (list bool)) (ii : nat) : nat := match used with None => ii | Some l => nth ii (positions l 0) 0%nat end.
(** there are enough channels in use *)
Definition enough (used : option (list bool)) (batch : nat) : Prop := match used with None => True | Some l => (batch <= length (positions l 0))%nat end.

Lemma used_loop_none {S} batch (body : nat -> nat -> S -> option S) : forall k i fuel s, (batch = i + k)%nat -> (k <= fuel)%nat ->
  used_loop None batch body fuel i i s = for_loop k i (fun i => body i i) s.
Proof.
  induction k as [|k IH]; intros i fuel s E Hf.
  - destruct fuel; cbn [used_loop for_loop]; by rewrite decide_True by lia.
  - destruct fuel as [|f]; [lia|]. cbn [used_loop for_loop]. rewrite decide_False by lia. cbn [mbind option_bind]. destruct (body i i s) as [s'|]; cbn [mbind option_bind]; [|done].
    apply IH; lia.
Qed.
Lemma used_loop_some {S} l batch (body : nat -> nat -> S -> option S) : forall rest i ii fuel s, drop i l = rest -> (ii <= batch)%nat -> (batch - ii <= length (positions rest i))%nat -> (length rest <= fuel)%nat ->
  used_loop (Some l) batch body fuel i ii s = for_loop (batch - ii) ii (fun x => body (nth (x - ii) (positions rest i) 0%nat) x) s.
Proof.
  induction rest as [|b rest IH]; intros i ii fuel s Hd Hle Hp Hf.
  - cbn [positions length] in Hp. replace (batch - ii)%nat with 0%nat by lia. destruct fuel; cbn [used_loop for_loop]; by rewrite decide_True by lia.
  - destruct (decide (batch <= ii)%nat).
    + replace (batch - ii)%nat with 0%nat by lia. destruct fuel; cbn [used_loop for_loop]; by rewrite decide_True by lia.
    + destruct fuel as [|f]; [cbn [length] in Hf; lia|]. cbn [used_loop]. rewrite decide_False by lia.
      assert (Hi : l !! i = Some b). { rewrite <- (Nat.add_0_r i). rewrite <- lookup_drop. rewrite Hd. done. }
      assert (Hd' : drop (Datatypes.S i) l = rest). { replace (Datatypes.S i) with (i + 1)%nat by lia. rewrite <- drop_drop. by rewrite Hd. }
      unfold rd. rewrite Hi. cbn [mbind option_bind]. cbn [positions] in *. cbn [length] in Hf. destruct b.
      * cbn [length] in Hp. replace (batch - ii)%nat with (Datatypes.S (batch - Datatypes.S ii)) by lia. cbn [for_loop]. rewrite Nat.sub_diag. cbn [nth].
        destruct (body i ii s) as [s'|]; cbn [mbind option_bind]; [|done]. rewrite (IH (Datatypes.S i) (Datatypes.S ii) f s' Hd') by lia.
        apply for_loop_ext. intros x s2 Hx. replace (x - ii)%nat with (Datatypes.S (x - Datatypes.S ii)) by lia. done.
      * rewrite (IH (Datatypes.S i) ii f s Hd') by lia. done.
Qed.
Lemma used_loop_all {S} used batch (body : nat -> nat -> S -> option S) s : enough used batch ->
  used_loop used batch body (batch + match used with None => 0 | Some l => length l end) 0 0 s = for_loop batch 0 (fun ii => body (chan used ii) ii) s.
Proof.
  intros He. destruct used as [l|]; cbn [enough chan] in *.
  - rewrite (used_loop_some l batch body l 0 0) by (cbn; lia || done). rewrite Nat.sub_0_r. apply for_loop_ext. intros x s2 Hx. by rewrite Nat.sub_0_r.
  - apply used_loop_none; lia.
Qed.
Lemma positions_spec l i ii : (ii < length (positions l i))%nat -> (i <= nth ii (positions l i) 0%nat < i + length l)%nat /\ l !! (nth ii (positions l i) 0 - i)%nat = Some true.
Proof.
  revert i ii. induction l as [|b l IH]; intros i ii H; cbn [positions length] in *; [lia|]. destruct b.
  - cbn [length] in H. destruct ii as [|ii]; cbn [nth].
    + split; [lia|]. by rewrite Nat.sub_diag.
    + destruct (IH (S i) ii ltac:(lia)) as [H1 H2]. split; [lia|]. replace (nth ii (positions l (S i)) 0 - i)%nat with (S (nth ii (positions l (S i)) 0 - S i))%nat by lia. done.
  - destruct (IH (S i) ii H) as [H1 H2]. split; [lia|]. replace (nth ii (positions l (S i)) 0 - i)%nat with (S (nth ii (positions l (S i)) 0 - S i))%nat by lia. done.
Qed.
Lemma positions_inj l i a b : (a < length (positions l i))%nat -> (b < length (positions l i))%nat -> nth a (positions l i) 0%nat = nth b (positions l i) 0%nat -> a = b.
Proof.
  revert i a b. induction l as [|x l IH]; intros i a b Ha Hb E; cbn [positions length] in *; [lia|]. destruct x; [|by eapply IH].
  cbn [length] in *. destruct a as [|a], b as [|b]; cbn [nth] in E; [done| | |f_equal; eapply IH; [| |exact E]; lia].
  - destruct (positions_spec l (S i) b ltac:(lia)). lia.
  - destruct (positions_spec l (S i) a ltac:(lia)). lia.
Qed.
Lemma chan_inj used batch a b : enough used batch -> (a < batch)%nat -> (b < batch)%nat -> chan used a = chan used b -> a = b.
Proof. intros He Ha Hb E. destruct used as [l|]; cbn [enough chan] in *; [|done]. eapply positions_inj; [| |exact E]; lia. Qed.

Section channel.
  Context (batch : nat) (input : list R) (off : nat) (gamma beta : list R) (eps : R) (rp cp rows cols : nat) (used : option (list bool)) (nch : nat).
  Notation GR := (rows - rp - rp)%nat.
  Notation GC := (cols - cp - cp)%nat.
  (** the cell of position p of the padded grid in channel c *)
  Definition cell (c p : nat) : nat := (off + (c * rows * cols + (rp + p / GC) * cols + (cp + p mod GC)))%nat.
  Definition chanX (ii p : nat) : R := el input (cell (chan used ii) p).
  Context (Hb : (0 < batch)%nat) (He : enough used batch).

  Lemma cell_lt c p : (c < nch)%nat -> (p < GR * GC)%nat -> (cell c p < off + nch * rows * cols)%nat.
  Proof.
    clear Hb He. intros Hc Hp. unfold cell. destruct (flat_split _ _ _ Hp) as (H1 & H2 & _). set (r := (p / GC)%nat) in *. set (s := (p mod GC)%nat) in *.
    assert ((rp + r) * cols + (cp + s) < rows * cols)%nat by (apply flat_lt; lia).
    assert (c * rows * cols + rows * cols <= nch * rows * cols)%nat by (rewrite <- !Nat.mul_assoc; nia). lia.
  Qed.
  Lemma cell_inj c p c' p' : (p < GR * GC)%nat -> (p' < GR * GC)%nat -> cell c p = cell c' p' -> c = c' /\ p = p'.
  Proof.
    clear Hb He. intros Hp Hp' E. unfold cell in E. destruct (flat_split _ _ _ Hp) as (H1 & H2 & H3). destruct (flat_split _ _ _ Hp') as (H1' & H2' & H3').
    set (r := (p / GC)%nat) in *. set (s := (p mod GC)%nat) in *. set (r' := (p' / GC)%nat) in *. set (s' := (p' mod GC)%nat) in *.
    assert (E1 : (c * (rows * cols) + ((rp + r) * cols + (cp + s)) = c' * (rows * cols) + ((rp + r') * cols + (cp + s')))%nat) by (rewrite !Nat.mul_assoc; lia).
    apply flat_inj in E1 as [-> E1]; [|apply flat_lt; lia|apply flat_lt; lia]. apply flat_inj in E1 as [Er Es]; [|lia|lia]. split; [done|]. assert (r = r') by lia. assert (s = s') by lia. congruence.
  Qed.

  Lemma pos_of j k r s : (j = rp + r)%nat -> (k = cp + s)%nat -> ((j - rp) * (cols - 2 * cp) + k - cp = r * GC + s)%nat.
  Proof. clear Hb He. intros -> ->. replace (rp + r - rp)%nat with r by lia. replace (cols - 2 * cp)%nat with GC by lia. generalize (r * GC)%nat. intros; lia. Qed.

  Lemma chan_avg_run M (X : nat -> nat -> R) (val : nat -> nat -> nat -> option R) acc : (GR * GC <= M)%nat -> length acc = M ->
    (forall ii r s, (ii < batch)%nat -> (r < GR)%nat -> (s < GC)%nat -> val (chan used ii) (rp + r)%nat (cp + s)%nat = Some (X ii (r * GC + s)%nat)) ->
    exists m, used_loop used batch (fun i ii => for_loop GR rp (fun j => for_loop GC cp (fun k m =>
       x ← val i j k; m1 ← addat m ((j - rp) * (cols - 2 * cp) + k - cp) x;
       if decide (ii = batch - 1)%nat then y ← rd m1 ((j - rp) * (cols - 2 * cp) + k - cp); wr m1 ((j - rp) * (cols - 2 * cp) + k - cp) (y / INR batch)%R else Some m1)))
       (batch + match used with None => 0 | Some l => length l end) 0 0 acc = Some m /\ length m = M /\
       forall p, (p < GR * GC)%nat -> el m p = (el acc p + sumn batch (fun ii => X ii p)) / INR batch.
  Proof.
    intros HM Hl Hv. rewrite used_loop_all by done.
    set (body := fun ii => for_loop GR rp (fun j => for_loop GC cp (fun k m =>
       x ← val (chan used ii) j k; m1 ← addat m ((j - rp) * (cols - 2 * cp) + k - cp) x;
       if decide (ii = batch - 1)%nat then y ← rd m1 ((j - rp) * (cols - 2 * cp) + k - cp); wr m1 ((j - rp) * (cols - 2 * cp) + k - cp) (y / INR batch)%R else Some m1))).
    assert (Hbody : forall ii, (ii < batch)%nat -> Pointwise M (body ii) (fun q m => if decide (q < GR * GC)%nat then (if decide (ii = batch - 1)%nat then (m + X ii q) / INR batch else m + X ii q) else m)).
    { intros ii Hii. eapply Pointwise_ext.
      - apply (Pointwise_loop2 M GR GC rp cp _ (fun r s m => if decide (ii = batch - 1)%nat then (m + X ii (r * GC + s)%nat) / INR batch else m + X ii (r * GC + s)%nat)); [done|].
        intros r s Hr Hs l Hl'. rewrite Hv by done. cbn [mbind option_bind]. rewrite !(pos_of _ _ r s eq_refl eq_refl).
        assert (HpM : (r * GC + s < M)%nat) by (pose proof (flat_lt GR GC r s Hr Hs); lia).
        pose proof (avg_cell M (r * GC + s)%nat (X ii (r * GC + s)%nat) (bool_decide (ii = batch - 1)%nat) batch HpM l Hl') as E.
        destruct (decide (ii = batch - 1)%nat) as [Hy|Hn]; [rewrite bool_decide_eq_true_2 in E by done|rewrite bool_decide_eq_false_2 in E by done]; exact E.
      - intros k x Hk. cbv beta. destruct (decide (k < GR * GC)%nat) as [Hlt|]; [|done]. destruct (flat_split _ _ _ Hlt) as (_ & _ & E). rewrite <- E. done. }
    destruct (for_loop_inv (fun i m => length m = M /\ forall p, (p < GR * GC)%nat -> el m p = if decide (i = batch) then (el acc p + sumn batch (fun ii => X ii p)) / INR batch else el acc p + sumn i (fun ii => X ii p)) body batch 0 acc) as (m & E & Lm & G).
    - split; [done|]. intros p Hp. rewrite decide_False by lia. cbn [sumn]. lra.
    - intros i m Hi [Lm G]. rewrite (Hbody i ltac:(lia) m Lm). eexists. split; [done|]. rewrite imap_length. split; [done|]. intros p Hp. rewrite el_imap by lia. rewrite decide_True by done. rewrite G by done.
      rewrite (decide_False (P := i = batch)) by lia. destruct (decide (i = batch - 1)%nat) as [->|].
      + rewrite decide_True by lia. replace batch with (S (batch - 1)) at 4 by lia. cbn [sumn]. f_equal. lra.
      + rewrite decide_False by lia. cbn [sumn]. lra.
    - exists m. split; [exact E|]. split; [done|]. intros p Hp. rewrite G by done. by rewrite decide_True by lia.
  Qed.
End channel.

Theorem channel_run batch input off temp gamma beta mean var outputs eps rp cp rows cols used nch T M :
  let N := ((rows - rp - rp) * (cols - cp - cp))%nat in
  let X := chanX input off rp cp rows cols used in
  (0 < batch)%nat -> enough used batch -> (forall ii, (ii < batch)%nat -> (chan used ii < nch)%nat /\ (chan used ii < T)%nat) ->
  (off + nch * rows * cols <= length input)%nat -> (off + nch * rows * cols <= length outputs)%nat ->
  (N <= M)%nat -> length gamma = M -> length beta = M -> length mean = M -> length var = M -> shape temp T M ->
  (forall p, el mean p = 0) -> (forall p, el var p = 0) ->
  exists m v t o, channel_normalization_feed_forward batch input off temp gamma beta mean var outputs eps rp cp rows cols used = Some (m, v, t, o) /\ length o = length outputs /\
    (forall p, (p < N)%nat -> el m p = batch_mean X batch p /\ el v p = batch_variance X batch p) /\
    (forall ii p, (ii < batch)%nat -> (p < N)%nat -> el o (cell off rp cp rows cols (chan used ii) p) = batch_norm_output X batch eps gamma beta ii p) /\
    (forall q, (forall ii p, (ii < batch)%nat -> (p < N)%nat -> q <> cell off rp cp rows cols (chan used ii) p) -> el o q = el outputs q).
Proof.
  intros N X Hb He Hch Hin Hout HM Lg Lb Lm Lv St Zm Zv. unfold channel_normalization_feed_forward. cbv zeta.
  assert (Hin' : forall ii r s, (ii < batch)%nat -> (r < rows - rp - rp)%nat -> (s < cols - cp - cp)%nat ->
    (off + (chan used ii * rows * cols + (rp + r) * cols + (cp + s)))%nat = cell off rp cp rows cols (chan used ii) (r * (cols - cp - cp) + s)).
  { intros ii r s Hii Hr Hs. unfold cell. rewrite flat_div, flat_mod by done. done. }
  assert (Hcl : forall ii p, (ii < batch)%nat -> (p < N)%nat -> (cell off rp cp rows cols (chan used ii) p < length input)%nat /\ (cell off rp cp rows cols (chan used ii) p < length outputs)%nat).
  { intros ii p Hii Hp. pose proof (cell_lt off rp cp rows cols nch (chan used ii) p (proj1 (Hch ii Hii)) Hp). lia. }
  destruct (chan_avg_run batch rp cp rows cols used Hb He M X (fun i j k => rd input (off + (i * rows * cols + j * cols + k))) mean HM Lm) as (m & E1 & L1 & G1).
  { intros ii r s Hii Hr Hs. rewrite Hin' by done. rewrite rd_el by (apply Hcl; [done|by apply flat_lt]). done. }
  assert (Gm : forall p, (p < N)%nat -> el m p = batch_mean X batch p) by (intros p Hp; rewrite G1 by done; rewrite Zm, Rplus_0_l; done).
  rewrite E1. cbn [mbind option_bind].
  destruct (chan_avg_run batch rp cp rows cols used Hb He M (fun ii p => (X ii p - batch_mean X batch p) ^ 2) (fun i j k => x ← rd input (off + (i * rows * cols + j * cols + k)); mu ← rd m ((j - rp) * (cols - 2 * cp) + k - cp); Some ((x - mu) * (x - mu))%R) var HM Lv) as (v & E2 & L2 & G2).
  { intros ii r s Hii Hr Hs. rewrite Hin' by done. rewrite (rd_el input) by (apply Hcl; [done|by apply flat_lt]). rewrite (pos_of rp cp cols _ _ r s eq_refl eq_refl). assert (HpN : (r * (cols - cp - cp) + s < N)%nat) by (by apply flat_lt).
    rewrite (rd_el m) by lia. cbn [mbind option_bind]. rewrite Gm by done. f_equal. unfold X, chanX. ring. }
  assert (Gv : forall p, (p < N)%nat -> el v p = batch_variance X batch p) by (intros p Hp; rewrite G2 by done; rewrite Zv, Rplus_0_l; done).
  match goal with |- context [mbind _ (used_loop used batch ?b _ 0 0 var)] => assert (E2' : used_loop used batch b (batch + match used with None => 0 | Some l => length l end) 0 0 var = Some v) end.
  { rewrite <- E2. rewrite !used_loop_all by done. apply for_loop_ext. intros ii s Hii. apply for_loop_ext. intros j s2 Hj. apply for_loop_ext. intros k s3 Hk.
    destruct (rd input _); cbn [mbind option_bind]; [|done]. destruct (rd m _); cbn [mbind option_bind]; done. }
  rewrite E2'. cbn [mbind option_bind].
  rewrite used_loop_all by done.
  set (Z := fun ii p => standardized X batch eps ii p). set (O := fun ii p => batch_norm_output X batch eps gamma beta ii p).
  match goal with |- context [for_loop batch 0 ?b (temp, outputs)] => destruct (for_loop_inv (fun i (st : list (list R) * list R) => shape st.1 T M /\ length st.2 = length outputs /\
      (forall ii p, (ii < i)%nat -> (ii < batch)%nat -> (p < N)%nat -> el st.2 (cell off rp cp rows cols (chan used ii) p) = O ii p) /\
      (forall q, (forall ii p, (ii < i)%nat -> (ii < batch)%nat -> (p < N)%nat -> q <> cell off rp cp rows cols (chan used ii) p) -> el st.2 q = el outputs q)) b batch 0 (temp, outputs)) as ([t o] & E3 & S3 & L3 & G3 & G4) end.
  - split; [done|]. split; [done|]. split; [intros; lia|done].
  - intros ii [t o] Hii (St' & Lo & A1 & A2). cbn [fst snd] in *.
    cbv beta. match goal with |- context [for_loop ?r rp (fun j => for_loop ?c cp (@?b j)) (t, o)] => destruct (for_loop_inv2 (fun x (st : list (list R) * list R) => shape st.1 T M /\ length st.2 = length outputs /\
       (forall p, (p < x)%nat -> (p < N)%nat -> el st.2 (cell off rp cp rows cols (chan used ii) p) = O ii p) /\
       (forall q, (forall p, (p < x)%nat -> (p < N)%nat -> q <> cell off rp cp rows cols (chan used ii) p) -> el st.2 q = el o q)) b r c rp cp (t, o)) as ([t' o'] & E & S' & L' & B1 & B2) end.
    + split; [done|]. split; [done|]. split; [intros; lia|done].
    + intros r s [t' o'] Hr Hs (S' & L' & B1 & B2). cbn [fst snd] in *. assert (HiB : (ii < batch)%nat) by lia. assert (HpN : (r * (cols - cp - cp) + s < N)%nat) by (by apply flat_lt).
      rewrite !(pos_of rp cp cols _ _ r s eq_refl eq_refl). rewrite !(Hin' ii r s) by done. set (p := (r * (cols - cp - cp) + s)%nat) in *.
      destruct (Hcl ii p HiB HpN) as [C1 C2]. rewrite (rd_el input), (rd_el m), (rd_el v), (rd_el gamma), (rd_el beta) by lia. cbn [mbind option_bind].
      destruct (mwr_run t' T M (chan used ii) p (Z ii p) S' (proj2 (Hch ii HiB)) ltac:(lia)) as (t2 & W1 & S2 & _).
      rewrite Gm, Gv by done. change (el input (cell off rp cp rows cols (chan used ii) p)) with (X ii p). change ((X ii p - batch_mean X batch p) / R_sqrt.sqrt (batch_variance X batch p + eps)) with (Z ii p).
      rewrite W1. cbn [mbind option_bind]. rewrite wr_Some by lia. cbn [mbind option_bind]. eexists. split; [done|]. cbn [fst snd]. split; [done|]. split; [by rewrite insert_length|]. split.
      * intros p' Hp' HpN'. destruct (decide (p' = p)) as [->|Hne].
        -- rewrite el_upd_eq by lia. unfold O, batch_norm_output. fold (Z ii p). ring.
        -- rewrite el_upd_ne by (intros Eq; apply (cell_inj off rp cp rows cols) in Eq; [tauto|done|done]). apply B1; [lia|done].
      * intros q Hq. rewrite el_upd_ne by (apply Hq; [lia|done]). apply B2. intros p' Hp' HpN'. apply Hq; [lia|done].
    + exists (t', o'). split; [exact E|]. cbn [fst snd] in *. split; [done|]. split; [done|]. split.
      * intros i2 p Hi2 HiB Hp. destruct (decide (i2 = ii)) as [->|Hne]; [apply B1; [exact Hp|done]|].
        rewrite B2; [apply A1; [lia|done|done]|]. intros p' Hp' HpN' Eq. apply (cell_inj off rp cp rows cols) in Eq as [Eq _]; [|done|done]. apply Hne. eapply chan_inj; [exact He| | |exact Eq]; lia.
      * intros q Hq. rewrite B2 by (intros p Hp HpN; apply Hq; [lia|lia|done]). apply A2. intros i2 p Hi2 HiB Hp. apply Hq; [lia|done|done].
  - rewrite E3. cbn [mbind option_bind fst snd] in *. exists m, v, t, o. split; [done|]. split; [done|]. split; [intros p Hp; split; [by apply Gm|by apply Gv]|]. split.
    + intros ii p Hii Hp. apply G3; [lia|done|done].
    + intros q Hq. apply G4. intros ii p _ Hii Hp. by apply Hq.
Qed.
