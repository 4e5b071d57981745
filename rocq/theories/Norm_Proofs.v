From Verif Require Import BaseLemmas NumLib3 Attn_Model Norm_Model Norm_Spec.
Open Scope R_scope.

(** matrices *)
Lemma rd_row (m : list (list R)) i : (i < length m)%nat -> rd m i = Some (nth i m []).
Proof. intros H. unfold rd. destruct (m !! i) as [r|] eqn:E; [|apply lookup_ge_None in E; lia]. f_equal. symmetry. by apply nth_lookup_Some. Qed.
Lemma mrd_el m a b i j : shape m a b -> (i < a)%nat -> (j < b)%nat -> mrd m i j = Some (mel m i j).
Proof. intros [L S] Hi Hj. unfold mrd. rewrite rd_row by lia. cbn [mbind option_bind]. apply rd_el. by rewrite S. Qed.
Lemma nth_insert_row (m : list (list R)) i r i' : (i < length m)%nat -> nth i' (<[i:=r]> m) [] = if decide (i' = i) then r else nth i' m [].
Proof.
  intros H. destruct (decide (i' = i)) as [->|Hne].
  - apply nth_lookup_Some. by apply list_lookup_insert.
  - destruct (decide (i' < length m)%nat).
    + destruct (m !! i') as [x|] eqn:E; [|apply lookup_ge_None in E; lia]. rewrite (nth_lookup_Some m _ _ _ E). apply nth_lookup_Some. by rewrite list_lookup_insert_ne.
    + rewrite !nth_overflow; [done|lia|rewrite insert_length; lia].
Qed.
Lemma mwr_run m a b i j x : shape m a b -> (i < a)%nat -> (j < b)%nat ->
  exists m', mwr m i j x = Some m' /\ shape m' a b /\ forall i' j', mel m' i' j' = if decide (i' = i /\ j' = j) then x else mel m i' j'.
Proof.
  intros [L S] Hi Hj. unfold mwr. rewrite rd_row by lia. cbn [mbind option_bind]. rewrite wr_Some by (rewrite S; done). cbn [mbind option_bind]. rewrite wr_Some by lia.
  eexists. split; [done|]. split.
  - split; [by rewrite insert_length|]. intros i' Hi'. rewrite nth_insert_row by lia. destruct (decide (i' = i)) as [->|]; [rewrite insert_length; by apply S|by apply S].
  - intros i' j'. unfold mel. rewrite nth_insert_row by lia. destruct (decide (i' = i)) as [->|].
    + rewrite el_upd by (rewrite S; done). destruct (decide (j' = j)) as [->|]; [by rewrite decide_True|rewrite decide_False by tauto; done].
    + rewrite decide_False by tauto. done.
Qed.
Lemma maddat_run m a b i j x : shape m a b -> (i < a)%nat -> (j < b)%nat ->
  exists m', maddat m i j x = Some m' /\ shape m' a b /\ forall i' j', mel m' i' j' = if decide (i' = i /\ j' = j) then mel m i j + x else mel m i' j'.
Proof. intros Hs Hi Hj. unfold maddat. rewrite (mrd_el m a b) by done. cbn [mbind option_bind]. by apply mwr_run. Qed.

(** accumulate over B instances and divide at the last *)
Lemma avg_pass N B body (X : nat -> nat -> R) : (0 < B)%nat ->
  (forall i, (i < B)%nat -> Pointwise N (body i) (fun q m => if decide (i = B - 1)%nat then (m + X i q) / INR B else m + X i q)) ->
  Pointwise N (for_loop B 0 body) (fun q m => (m + sumn B (fun i => X i q)) / INR B).
Proof.
  intros HB H l Hl. destruct B as [|b]; [lia|]. replace (for_loop (S b) 0 body l) with (for_loop (b + 1) 0 body l) by (f_equal; lia).
  rewrite for_loop_app. assert (H1 : Adds N (for_loop b 0 body) (fun q => sumn b (fun i => X i q))).
  { apply (Adds_loop N b body X). intros i Hi. eapply Pointwise_ext; [apply H; lia|]. intros q m Hq. cbv beta. by rewrite decide_False by lia. }
  rewrite (H1 l Hl). cbn [mbind option_bind]. rewrite Nat.add_0_l. cbn [for_loop]. rewrite (H b ltac:(lia)) by by rewrite imap_length.
  cbn [mbind option_bind]. rewrite imap_imap. f_equal. apply imap_ext_lt. intros q m Hq _. rewrite decide_True by lia. cbn [sumn]. f_equal. lra.
Qed.
(** one cell of an accumulate-and-divide loop *)
Lemma avg_cell N q x (last : bool) B : (q < N)%nat ->
  Pointwise N (fun m => m1 ← addat m q x; if last then y ← rd m1 q; wr m1 q (y / INR B)%R else Some m1)
    (fun k m => if decide (k = q) then (if last then (m + x) / INR B else m + x) else m).
Proof.
  intros Hq l Hl. pose proof (Pointwise_addat N q x Hq l Hl) as E. rewrite E. cbn [mbind option_bind].
  destruct last; [|done]. rewrite rd_el by (rewrite imap_length; lia). cbn [mbind option_bind]. rewrite el_imap by lia. rewrite decide_True by done.
  rewrite (Pointwise_wr N q _ Hq) by by rewrite imap_length. rewrite imap_imap. f_equal. apply imap_ext_lt. intros k y Hk Hy. cbv beta.
  destruct (decide (k = q)) as [->|]; [|done]. f_equal. f_equal. by apply el_lookup.
Qed.

Lemma bn_mean_run A B input N mean : (0 < B <= A)%nat -> shape input A N -> length mean = N ->
  exists m, bn_mean B input N mean = Some m /\ length m = N /\ forall j, (j < N)%nat -> el m j = (el mean j + sumn B (fun i => mel input i j)) / INR B.
Proof.
  intros HB Hs Hm. eexists. split; [|split].
  - unfold bn_mean. apply (avg_pass N B _ (fun i q => mel input i q)); [lia| |done].
    intros i Hi. eapply Pointwise_ext.
    + apply (Pointwise_loop N N 0 _ (fun q m => if decide (i = B - 1)%nat then (m + mel input i q) / INR B else m + mel input i q)); [lia|]. intros j Hj l Hl. rewrite (mrd_el input A N) by (done || lia). cbn [mbind option_bind].
      rewrite Nat.add_0_l. pose proof (avg_cell N j (mel input i j) (bool_decide (i = B - 1)%nat) B Hj l Hl) as E.
      destruct (decide (i = B - 1)%nat) as [Hy|Hn]; [rewrite bool_decide_eq_true_2 in E by done|rewrite bool_decide_eq_false_2 in E by done]; exact E.
    + intros k x Hk. cbv beta. rewrite decide_True by lia. by rewrite Nat.sub_0_r.
  - by rewrite imap_length.
  - intros j Hj. rewrite el_imap by lia. done.
Qed.
Lemma bn_var_run A B input N mean var : (0 < B <= A)%nat -> shape input A N -> length mean = N -> length var = N ->
  exists v, bn_var B input N mean var = Some v /\ length v = N /\ forall j, (j < N)%nat -> el v j = (el var j + sumn B (fun i => (mel input i j - el mean j) * (mel input i j - el mean j))) / INR B.
Proof.
  intros HB Hs Hm Hv. eexists. split; [|split].
  - unfold bn_var. apply (avg_pass N B _ (fun i q => (mel input i q - el mean q) * (mel input i q - el mean q))); [lia| |done].
    intros i Hi. eapply Pointwise_ext.
    + apply (Pointwise_loop N N 0 _ (fun q m => if decide (i = B - 1)%nat then (m + (mel input i q - el mean q) * (mel input i q - el mean q)) / INR B else m + (mel input i q - el mean q) * (mel input i q - el mean q))); [lia|]. intros j Hj l Hl. rewrite (mrd_el input A N) by (done || lia). rewrite (rd_el mean) by lia. cbn [mbind option_bind].
      rewrite Nat.add_0_l. pose proof (avg_cell N j ((mel input i j - el mean j) * (mel input i j - el mean j)) (bool_decide (i = B - 1)%nat) B Hj l Hl) as E.
      destruct (decide (i = B - 1)%nat) as [Hy|Hn]; [rewrite bool_decide_eq_true_2 in E by done|rewrite bool_decide_eq_false_2 in E by done]; exact E.
    + intros k x Hk. cbv beta. rewrite decide_True by lia. by rewrite Nat.sub_0_r.
  - by rewrite imap_length.
  - intros j Hj. rewrite el_imap by lia. done.
Qed.

(** the normalizing pass, state = two matrices *)
Lemma bn_rows_run A B input N gamma beta mean var eps temp outputs : (B <= A)%nat -> shape input A N -> length gamma = N -> length beta = N -> length mean = N -> length var = N ->
  shape temp B N -> shape outputs B N ->
  exists t o, for_loop B 0 (bn_row input N gamma beta mean var eps) (temp, outputs) = Some (t, o) /\ shape t B N /\ shape o B N /\
    forall i j, (i < B)%nat -> (j < N)%nat -> mel t i j = (mel input i j - el mean j) / R_sqrt.sqrt (el var j + eps) /\ mel o i j = mel t i j * el gamma j + el beta j.
Proof.
  intros HBA Hs Lg Lb Lm Lv St So.
  set (Z := fun i j => (mel input i j - el mean j) / R_sqrt.sqrt (el var j + eps)).
  destruct (for_loop_inv2 (fun x (st : list (list R) * list (list R)) => shape st.1 B N /\ shape st.2 B N /\ forall i j, (i * N + j < x)%nat -> (i < B)%nat -> (j < N)%nat -> mel st.1 i j = Z i j /\ mel st.2 i j = Z i j * el gamma j + el beta j)
    (fun i j st => x ← mrd input i j; mu ← rd mean j; v ← rd var j; g ← rd gamma j; b ← rd beta j;
      let z := ((x - mu) / R_sqrt.sqrt (v + eps))%R in t ← mwr st.1 i j z; o ← mwr st.2 i j (z * g + b)%R; Some (t, o)) B N 0 0 (temp, outputs)) as ([t o] & E & Ht & Ho & H).
  - split; [done|]. split; [done|]. intros; lia.
  - intros i j [t o] Hi Hj (Ht & Ho & H). cbn [fst snd] in *. cbn [Nat.add]. rewrite (mrd_el input A N) by (done || lia). rewrite (rd_el mean), (rd_el var), (rd_el gamma), (rd_el beta) by lia. cbn [mbind option_bind].
    destruct (mwr_run t B N i j (Z i j) Ht Hi Hj) as (t' & E1 & S1 & G1). destruct (mwr_run o B N i j (Z i j * el gamma j + el beta j) Ho Hi Hj) as (o' & E2 & S2 & G2).
    fold (Z i j). rewrite E1. cbn [mbind option_bind]. rewrite E2. cbn [mbind option_bind]. eexists. split; [done|]. cbn [fst snd]. split; [done|]. split; [done|].
    intros i' j' Hlt Hi' Hj'. rewrite G1, G2. destruct (decide (i' = i /\ j' = j)) as [[-> ->]|Hne]; [done|]. apply H; [|done|done].
    destruct (decide (i' * N + j' = i * N + j)%nat) as [Ee|]; [|lia]. apply flat_inj in Ee; [tauto|done|done].
  - exists t, o. split; [exact E|]. split; [done|]. split; [done|]. intros i j Hi Hj. destruct (H i j) as [H1 H2]; [by apply flat_lt|done|done|]. cbn [fst snd] in *. rewrite H1. split; [done|]. rewrite H2. done.
Qed.

Theorem bn_ff_run A B input temp N gamma beta mean var outputs eps :
  (0 < B <= A)%nat -> shape input A N -> shape temp B N -> shape outputs B N -> length gamma = N -> length beta = N -> length mean = N -> length var = N ->
  (forall j, el mean j = 0) -> (forall j, el var j = 0) ->
  exists m v t o, batch_normalization_feed_forward B input temp N gamma beta mean var outputs eps = Some (m, v, t, o) /\ length m = N /\ length v = N /\ shape t B N /\ shape o B N /\
    (forall j, (j < N)%nat -> el m j = batch_mean (mel input) B j /\ el v j = batch_variance (mel input) B j) /\
    (forall i j, (i < B)%nat -> (j < N)%nat -> mel t i j = standardized (mel input) B eps i j /\ mel o i j = batch_norm_output (mel input) B eps gamma beta i j).
Proof.
  intros HB Hs Ht Ho Lg Lb Lm Lv Zm Zv. unfold batch_normalization_feed_forward.
  destruct (bn_mean_run A B input N mean HB Hs Lm) as (m & E1 & L1 & G1). rewrite E1. cbn [mbind option_bind].
  destruct (bn_var_run A B input N m var HB Hs L1 Lv) as (v & E2 & L2 & G2). rewrite E2. cbn [mbind option_bind].
  destruct (bn_rows_run A B input N gamma beta m v eps temp outputs) as (t & o & E3 & S1 & S2 & G3); try done; [lia|]. rewrite E3. cbn [mbind option_bind fst snd].
  assert (Gm : forall j, (j < N)%nat -> el m j = batch_mean (mel input) B j) by (intros j Hj; rewrite G1 by done; rewrite Zm, Rplus_0_l; done).
  assert (Gv : forall j, (j < N)%nat -> el v j = batch_variance (mel input) B j).
  { intros j Hj. rewrite G2 by done. rewrite Zv, Rplus_0_l, Gm by done. unfold batch_variance. f_equal. apply sumn_ext. intros. ring. }
  exists m, v, t, o. split; [done|]. repeat (split; [done|]). split; [intros j Hj; split; [by apply Gm|by apply Gv]|].
  intros i j Hi Hj. destruct (G3 i j Hi Hj) as [T O]. rewrite O, T, Gm, Gv by done. unfold batch_norm_output, standardized. split; [done|]. ring.
Qed.

(** parameter errors *)
Lemma bn_bp_first_run B input temp N gamma mean oerr e : shape input B N -> shape temp B N -> shape oerr B N -> length gamma = N -> length mean = N ->
  length (be_gamma e) = N -> length (be_beta e) = N -> length (be_array e) = N -> shape (be_temp e) B N ->
  exists e', bn_bp_first B input temp N gamma mean oerr e = Some e' /\ length (be_gamma e') = N /\ length (be_beta e') = N /\ length (be_array e') = N /\ shape (be_temp e') B N /\
    (forall j, (j < N)%nat -> el (be_gamma e') j = el (be_gamma e) j + sumn B (fun i => mel oerr i j * mel temp i j)) /\
    (forall j, (j < N)%nat -> el (be_beta e') j = el (be_beta e) j + sumn B (fun i => mel oerr i j)) /\
    (forall j, (j < N)%nat -> el (be_array e') j = el (be_array e) j + sumn B (fun i => mel input i j - el mean j)) /\
    (forall i j, (i < B)%nat -> (j < N)%nat -> mel (be_temp e') i j = mel oerr i j * el gamma j).
Proof.
  intros S1 S2 S3 Lg Lm L1 L2 L3 S4.
  set (P := fun (i jj : nat) (e' : bn_err) => length (be_gamma e') = N /\ length (be_beta e') = N /\ length (be_array e') = N /\ shape (be_temp e') B N /\
    (forall j, (j < N)%nat -> el (be_gamma e') j = el (be_gamma e) j + sumn (if decide (j < jj)%nat then S i else i) (fun i => mel oerr i j * mel temp i j)) /\
    (forall j, (j < N)%nat -> el (be_beta e') j = el (be_beta e) j + sumn (if decide (j < jj)%nat then S i else i) (fun i => mel oerr i j)) /\
    (forall j, (j < N)%nat -> el (be_array e') j = el (be_array e) j + sumn (if decide (j < jj)%nat then S i else i) (fun i => mel input i j - el mean j)) /\
    (forall i' j, (i' < if decide (j < jj) then S i else i)%nat -> (j < N)%nat -> mel (be_temp e') i' j = mel oerr i' j * el gamma j)).
  destruct (for_loop_inv (fun i e' => P i 0%nat e') (fun i => for_loop N 0 (fun j e =>
    o ← mrd oerr i j; t ← mrd temp i j; x ← mrd input i j; mu ← rd mean j; g ← rd gamma j;
    ge ← addat (be_gamma e) j (o * t)%R; bb ← addat (be_beta e) j o;
    te ← mwr (be_temp e) i j (o * g)%R; ta ← addat (be_array e) j (x - mu)%R;
    Some (BnErr ge bb te ta))) B 0 e) as (e' & E & H).
  - unfold P. repeat (split; [done|]). repeat split; intros; try (rewrite decide_False in * by lia); cbn [sumn] in *; try lra; lia.
  - intros i e1 Hi H. match goal with |- context [for_loop N 0 ?bd e1] => destruct (for_loop_inv (fun j e' => P i j e') bd N 0 e1) as (e2 & E2 & H2) end.
    + exact H.
    + intros j e2 Hj (A1 & A2 & A3 & A4 & B1 & B2 & B3 & B4). assert (HjN : (j < N)%nat) by lia. assert (HiB : (i < B)%nat) by lia.
      rewrite (mrd_el oerr B N), (mrd_el temp B N), (mrd_el input B N) by done. rewrite (rd_el mean), (rd_el gamma) by lia. cbn [mbind option_bind].
      rewrite (Pointwise_addat N j _ HjN (be_gamma e2) A1). cbn [mbind option_bind]. rewrite (Pointwise_addat N j _ HjN (be_beta e2) A2). cbn [mbind option_bind].
      destruct (mwr_run (be_temp e2) B N i j (mel oerr i j * el gamma j) A4 HiB HjN) as (te & E3 & S5 & G5). rewrite E3. cbn [mbind option_bind].
      rewrite (Pointwise_addat N j _ HjN (be_array e2) A3). cbn [mbind option_bind]. eexists. split; [done|]. unfold P. cbn [be_gamma be_beta be_temp be_array]. rewrite !imap_length. do 3 (split; [done|]). split; [done|].
      split; [|split; [|split]].
      * intros j' Hj'. rewrite el_imap by lia. rewrite B1 by done. destruct (decide (j' = j)) as [->|Hne].
        -- rewrite (decide_False (P := (j < j)%nat)) by lia. rewrite (decide_True (P := (j < S j)%nat)) by lia. cbn [sumn]. lra.
        -- destruct (decide (j' < j)%nat); [rewrite decide_True by lia|rewrite decide_False by lia]; done.
      * intros j' Hj'. rewrite el_imap by lia. rewrite B2 by done. destruct (decide (j' = j)) as [->|Hne].
        -- rewrite (decide_False (P := (j < j)%nat)) by lia. rewrite (decide_True (P := (j < S j)%nat)) by lia. cbn [sumn]. lra.
        -- destruct (decide (j' < j)%nat); [rewrite decide_True by lia|rewrite decide_False by lia]; done.
      * intros j' Hj'. rewrite el_imap by lia. rewrite B3 by done. destruct (decide (j' = j)) as [->|Hne].
        -- rewrite (decide_False (P := (j < j)%nat)) by lia. rewrite (decide_True (P := (j < S j)%nat)) by lia. cbn [sumn]. lra.
        -- destruct (decide (j' < j)%nat); [rewrite decide_True by lia|rewrite decide_False by lia]; done.
      * intros i' j' Hi' Hj'. rewrite G5. destruct (decide (i' = i /\ j' = j)) as [[-> ->]|Hne]; [done|]. apply B4; [|done].
        destruct (decide (j' < j)%nat); destruct (decide (j' < S j)%nat); lia.
    + exists e2. split; [exact E2|]. destruct H2 as (A1 & A2 & A3 & A4 & B1 & B2 & B3 & B4). unfold P. do 3 (split; [done|]). split; [done|].
      split; [|split; [|split]].
      * intros j Hj. rewrite B1 by done. rewrite decide_True by lia. rewrite decide_False by lia. done.
      * intros j Hj. rewrite B2 by done. rewrite decide_True by lia. rewrite decide_False by lia. done.
      * intros j Hj. rewrite B3 by done. rewrite decide_True by lia. rewrite decide_False by lia. done.
      * intros i' j Hi' Hj. rewrite decide_False in Hi' by lia. apply B4; [|done]. rewrite decide_True by lia. lia.
  - exists e'. split; [exact E|]. destruct H as (A1 & A2 & A3 & A4 & B1 & B2 & B3 & B4). do 3 (split; [done|]). split; [done|].
    split; [|split; [|split]].
    + intros j Hj. rewrite B1 by done. by rewrite decide_False by lia.
    + intros j Hj. rewrite B2 by done. by rewrite decide_False by lia.
    + intros j Hj. rewrite B3 by done. by rewrite decide_False by lia.
    + intros i j Hi Hj. apply B4; [|done]. rewrite decide_False by lia. lia.
Qed.

(** the input error, as computed *)
Lemma bn_bp_second_run B input N mean var terr tarr eps ierr : shape input B N -> shape terr B N -> shape ierr B N -> length mean = N -> length var = N -> length tarr = N ->
  exists ie, bn_bp_second B input N mean var terr tarr eps ierr = Some ie /\ shape ie B N /\
    forall j z, (j < B)%nat -> (z < N)%nat -> mel ie j z = mel ierr j z + mel terr j z * sumn B (fun i => bn_factor B (bool_decide (i = j)) (mel input i z) (mel input j z) (el mean z) (el var z) (el tarr z) eps).
Proof.
  intros S1 S2 S3 Lm Lv Lt.
  set (F := fun i j z => mel terr j z * bn_factor B (bool_decide (i = j)) (mel input i z) (mel input j z) (el mean z) (el var z) (el tarr z) eps).
  destruct (for_loop_inv (fun i ie => shape ie B N /\ forall j z, (j < B)%nat -> (z < N)%nat -> mel ie j z = mel ierr j z + sumn i (fun i => F i j z))
    (fun i => for_loop B 0 (fun j => for_loop N 0 (fun z ie =>
    te ← mrd terr j z; xi ← mrd input i z; xj ← mrd input j z; mu ← rd mean z; v ← rd var z; ta ← rd tarr z;
    maddat ie j z (te * bn_factor B (bool_decide (i = j)) xi xj mu v ta eps)%R))) B 0 ierr) as (ie & E & Si & H).
  - split; [done|]. intros. cbn [sumn]. lra.
  - intros i ie Hi [Si H].
    destruct (for_loop_inv2 (fun x ie' => shape ie' B N /\ forall j z, (j < B)%nat -> (z < N)%nat -> mel ie' j z = mel ie j z + if decide (j * N + z < x)%nat then F i j z else 0)
      (fun j z ie => te ← mrd terr j z; xi ← mrd input i z; xj ← mrd input j z; mu ← rd mean z; v ← rd var z; ta ← rd tarr z;
      maddat ie j z (te * bn_factor B (bool_decide (i = j)) xi xj mu v ta eps)%R) B N 0 0 ie) as (ie' & E & Si' & H').
    + split; [done|]. intros. rewrite decide_False by lia. lra.
    + intros j z ie' Hj Hz [Si' H']. cbn [Nat.add]. assert (HiB : (i < B)%nat) by lia. rewrite (mrd_el terr B N), (mrd_el input B N), (mrd_el input B N) by done. rewrite (rd_el mean), (rd_el var), (rd_el tarr) by lia. cbn [mbind option_bind].
      destruct (maddat_run ie' B N j z (F i j z) Si' Hj Hz) as (ie2 & E2 & S5 & G). exists ie2. split; [exact E2|]. split; [done|]. intros j' z' Hj' Hz'. rewrite G.
      destruct (decide (j' = j /\ z' = z)) as [[-> ->]|Hne].
      * rewrite H' by done. rewrite decide_False by lia. rewrite decide_True by lia. lra.
      * rewrite H' by done. f_equal. destruct (decide (j' * N + z' = j * N + z)%nat) as [Ee|Hn]; [apply flat_inj in Ee; [tauto|done|done]|].
        destruct (decide (j' * N + z' < j * N + z)%nat); [rewrite decide_True by lia|rewrite decide_False by lia]; done.
    + exists ie'. split; [exact E|]. split; [done|]. intros j z Hj Hz. rewrite H', H by done. rewrite decide_True by (by apply flat_lt). cbn [sumn]. lra.
  - exists ie. split; [exact E|]. split; [done|]. intros j z Hj Hz. rewrite H by done. unfold F. by rewrite sumn_scal_l.
Qed.

(** scaled l2 norm *)
Lemma l2_ff_run n g input output : length input = n -> length output = n ->
  exists o, feed_forward_scaled_l2_norm n g input output = Some (norm2 n input, o) /\ length o = n /\ forall i, (i < n)%nat -> el o i = scaled_l2 n g input i.
Proof.
  intros L1 L2. unfold feed_forward_scaled_l2_norm. rewrite (for_loop_sum n _ (fun i => el input i * el input i)) by (intros i Hi; rewrite (rd_el input) by lia; done).
  cbn [mbind option_bind]. assert (E : R_sqrt.sqrt (0 + sumn n (fun i => el input i * el input i)) = norm2 n input) by (unfold norm2; f_equal; rewrite Rplus_0_l; apply sumn_ext; intros; ring).
  rewrite E. destruct (fill1 n n 0 (fun i o => x ← rd input i; wr o i (x * g / norm2 n input)%R) (fun r => r) (fun r => el input r * g / norm2 n input) output) as (o & E1 & Lo & G & _); [|done|done|done|].
  - intros r l Hr Hl. cbn [Nat.add]. rewrite (rd_el input) by lia. done.
  - rewrite E1. cbn [mbind option_bind]. exists o. split; [done|]. split; [done|]. intros i Hi. rewrite G by done. unfold scaled_l2, Rdiv. ring.
Qed.
Lemma l2_bp_run n g dg norm input oerr ierr : length input = n -> length oerr = n -> length ierr = n ->
  exists dg' ie, back_propagation_scaled_l2_norm n g dg norm input oerr ierr = Some (dg', ie) /\ length ie = n /\ dg' = dg + sumn n (fun i => el oerr i * el input i / norm) /\
    forall i, (i < n)%nat -> el ie i = el ierr i + sumn n (fun j => if decide (i = j) then g * el oerr i * (norm * norm - el input i * el input i) / (norm * norm * norm) else - (g * el oerr j * (el input i * el input j) / (norm * norm * norm))).
Proof.
  intros L1 L2 L3. unfold back_propagation_scaled_l2_norm. cbv zeta.
  set (F := fun i j => if decide (i = j) then g * el oerr i * (norm * norm - el input i * el input i) / (norm * norm * norm) else - (g * el oerr j * (el input i * el input j) / (norm * norm * norm))).
  match goal with |- context [for_loop n 0 ?b _] => destruct (for_loop_inv (fun i (st : R * list R) => st.1 = dg + sumn i (fun i => el oerr i * el input i / norm) /\ length st.2 = n /\ forall k, (k < n)%nat -> el st.2 k = el ierr k + if decide (k < i)%nat then sumn n (F k) else 0) b n 0 (dg, ierr)) as ([dg' ie] & E & H1 & H2 & H3) end.
  - split; [cbn; lra|]. split; [done|]. intros. rewrite decide_False by lia. cbn [fst snd]. lra.
  - intros i [d ie] Hi (H1 & H2 & H3). cbn [fst snd] in *. rewrite (rd_el oerr), (rd_el input) by lia. cbn [mbind option_bind].
    match goal with |- context [for_loop n 0 ?b ie] => assert (HA : Adds n (for_loop n 0 b) (fun k => sumn n (fun j => if decide (k = i) then F i j else 0))) end.
    { apply (Adds_loop n n _ (fun j k => if decide (k = i) then F i j else 0)). intros j Hj. eapply Adds_body; cycle 1; [apply (Adds_at n i (F i j)); lia|]. intros l Hl. rewrite (rd_el oerr), (rd_el input) by lia. cbn [mbind option_bind]. unfold F. by destruct (decide (i = j)). }
    rewrite (HA ie H2). cbn [mbind option_bind]. eexists. split; [done|]. cbn [fst snd]. split; [cbn [sumn]; lra|]. rewrite imap_length. split; [done|].
    intros k Hk. rewrite el_imap by lia. rewrite H3 by done. destruct (decide (k = i)) as [->|Hne].
    + rewrite decide_False by lia. rewrite decide_True by lia. rewrite Rplus_0_r. done.
    + rewrite (sumn_0 n (fun _ => 0)) by done. destruct (decide (k < i)%nat); [rewrite decide_True by lia|rewrite decide_False by lia]; lra.
  - exists dg', ie. split; [exact E|]. cbn [fst snd] in *. split; [done|]. split; [done|]. intros i Hi. rewrite H3 by done. rewrite decide_True by lia. done.
Qed.
