(** C18: itoa_n. *)
From Verif Require Import BaseLemmas Itoa_Model.
Open Scope Z_scope.

(** Specification: [ds] is the decimal notation of n: digits, most significant first, no leading zero. *)
Definition value (ds : list Z) : Z := fold_left (fun acc d => 10 * acc + d) ds 0.
Definition decimal_of (n : Z) (ds : list Z) : Prop :=
  value ds = n /\ Forall (fun d => 0 <= d <= 9) ds /\ ds <> [] /\ (head ds = Some 0 -> ds = [0]).

Lemma value_app ds d : value (ds ++ [d]) = 10 * value ds + d.
Proof. unfold value. by rewrite fold_left_app. Qed.

Lemma decimal_exists n : 0 <= n -> exists ds, decimal_of n ds.
Proof.
  intros Hn. revert n Hn. apply (Zlt_0_ind (fun n => exists ds, decimal_of n ds)).
  intros n IH Hn. destruct (decide (n < 10)).
  - exists [n]. split_and!; [unfold value; cbn; lia|repeat constructor; lia|done|]. cbn. intros H. by injection H as ->.
  - destruct (IH (n / 10)) as (ds & Hv & Hf & Hne & Hh); [split; [apply Z.div_pos; lia|apply Z.div_lt; lia]|].
    pose proof (Z.div_mod n 10 ltac:(lia)). pose proof (Z.mod_pos_bound n 10 ltac:(lia)).
    exists (ds ++ [n mod 10]). split_and!.
    + rewrite value_app. lia.
    + apply Forall_app. split; [done|]. repeat constructor; lia.
    + destruct ds; done.
    + intros Hz. destruct ds as [|d ds]; [done|]. cbn in Hz. rewrite (Hh Hz) in Hv. cbn in Hv. nia.
Qed.

(** the digits produced by repeated division, least significant first *)
Lemma decimal_split n ds : decimal_of n ds -> 0 <= n ->
  (n < 10 /\ ds = [n]) \/ (10 <= n /\ exists ds', ds = ds' ++ [n mod 10] /\ decimal_of (n / 10) ds').
Proof.
  intros (Hv & Hf & Hne & Hh) Hn. destruct (exists_last Hne) as (ds' & d & ->).
  rewrite value_app in Hv. rewrite Forall_app in Hf. destruct Hf as [Hf Hd]. apply Forall_cons_1 in Hd as [Hd _].
  assert (Hvn : 0 <= value ds').
  { clear -Hf. revert Hf. induction ds' as [|d ds' IH] using rev_ind; intros Hf; [done|]. rewrite value_app.
    apply Forall_app in Hf as [Hf Hd]. apply Forall_cons_1 in Hd as [Hd _]. specialize (IH Hf). lia. }
  assert (Hdm : d = n mod 10) by (apply (Z.mod_unique_pos n 10 (value ds')); lia).
  assert (Hdd : value ds' = n / 10) by (apply (Z.div_unique_pos n 10 _ d); lia).
  destruct ds' as [|d0 ds'].
  - left. cbn in *. unfold value in Hv. cbn in Hv. split; [lia|]. f_equal. lia.
  - right. assert (Hd0 : d0 <> 0). { intros ->. specialize (Hh eq_refl). by destruct ds'. }
    assert (0 < value (d0 :: ds')).
    { clear Hv Hdd Hdm Hh Hne Hvn. apply Forall_cons_1 in Hf as [Hd1 Hf]. revert Hf. induction ds' as [|x ds' IH] using rev_ind; intros Hf.
      - unfold value. cbn. lia.
      - apply Forall_app in Hf as [Hf Hx]. apply Forall_cons_1 in Hx as [Hx _]. rewrite app_comm_cons, value_app. specialize (IH Hf). lia. }
    split; [lia|]. exists (d0 :: ds'). split; [by rewrite Hdm|]. split_and!; [done|done|done|]. cbn. intros E. by injection E.
Qed.

Lemma quot10 n : 0 <= n -> Z.quot n 10 = n / 10. Proof. intros. by rewrite Z.quot_div_nonneg by lia. Qed.
Lemma rem10 n : 0 <= n -> Z.rem n 10 = n mod 10. Proof. intros. by rewrite Z.rem_mod_nonneg by lia. Qed.
Lemma div10_0 n : 0 <= n -> n / 10 = 0 <-> n < 10.
Proof. intros. rewrite Z.div_small_iff by lia. lia. Qed.

Lemma digits_fuel fuel n ds : decimal_of n ds -> 0 <= n -> n < 10 ^ Z.of_nat (S fuel) -> (length ds <= S fuel)%nat.
Proof.
  revert n ds. induction fuel as [|fuel IH]; intros n ds Hd Hn Hlt;
  (destruct (decimal_split n ds Hd Hn) as [[? ->]|(? & ds' & -> & Hd')]; [cbn; lia|]).
  - cbn in Hlt. lia.
  - rewrite app_length. cbn [length]. rewrite Nat2Z.inj_succ, Z.pow_succ_r in Hlt by lia.
    specialize (IH (n / 10) ds' Hd' ltac:(apply Z.div_pos; lia) ltac:(apply Z.div_lt_upper_bound; lia)). lia.
Qed.

Lemma count_ok fuel n ds p : decimal_of n ds -> 0 <= n -> (length ds <= fuel)%nat -> count_digits fuel n p = Some (p + length ds)%nat.
Proof.
  revert n ds p. induction fuel as [|fuel IH]; intros n ds p Hd Hn Hf.
  - destruct Hd as (_ & _ & Hne & _). destruct ds; [done|cbn in Hf; lia].
  - cbn [count_digits]. rewrite quot10 by done. destruct (decimal_split n ds Hd Hn) as [[Hs ->]|(Hs & ds' & -> & Hd')].
    + rewrite decide_True by by apply div10_0. done.
    + rewrite decide_False by (rewrite div10_0; lia). rewrite app_length in *. cbn in *.
      rewrite (IH (n / 10) ds' (p + 1)%nat Hd'); [f_equal; lia|apply Z.div_pos; lia|lia].
Qed.

Definition ascii_digits (ds : list Z) : list Z := map (fun d => 48 + d) ds.

Lemma insert_app_at (pre mid : list Z) x y rest : <[(length pre)%nat := y]> (pre ++ x :: rest) = pre ++ y :: rest.
Proof. induction pre; cbn; [done|by f_equal]. Qed.

Lemma write_ok fuel : forall n ds pre mid post, decimal_of n ds -> 0 <= n -> (length ds <= fuel)%nat -> length mid = length ds ->
  write_digits fuel (pre ++ mid ++ post) n (length pre + length ds)%nat = Some (pre ++ ascii_digits ds ++ post).
Proof.
  induction fuel as [|fuel IH]; intros n ds pre mid post Hd Hn Hf Hm.
  - destruct Hd as (_ & _ & Hne & _). destruct ds; [done|cbn in Hf; lia].
  - cbn [write_digits]. assert (0 < length ds)%nat. { destruct Hd as (_ & _ & Hne & _). destruct ds; [done|cbn; lia]. }
    rewrite decide_False by lia. rewrite rem10, quot10 by done. pose proof (Z.mod_pos_bound n 10 ltac:(lia)).
    rewrite (decide_True (P := 0 <= n mod 10 <= 10)) by lia. rewrite (decide_False (P := n mod 10 = 10)) by lia.
    destruct (@exists_last _ mid) as (mid' & x & ->); [destruct mid; [cbn in Hm; lia|done]|].
    rewrite app_length in Hm. cbn in Hm.
    assert (Hwr : wr (pre ++ (mid' ++ [x]) ++ post) (length pre + length ds - 1)%nat (48 + n mod 10) = Some (pre ++ mid' ++ (48 + n mod 10) :: post)).
    { rewrite wr_Some by (rewrite !app_length; cbn; lia). f_equal. replace (length pre + length ds - 1)%nat with (length (pre ++ mid')) by (rewrite app_length; lia).
      rewrite <- app_assoc. cbn [app]. rewrite (app_assoc pre mid'). rewrite insert_app_at by exact mid'. by rewrite <- app_assoc. }
    rewrite Hwr. cbn [mbind option_bind].
    destruct (decimal_split n ds Hd Hn) as [[Hs ->]|(Hs & ds' & -> & Hd')].
    + rewrite decide_True by by apply div10_0. cbn in Hm. assert (mid' = []) as -> by (apply nil_length_inv; lia).
      rewrite Z.mod_small by lia. done.
    + rewrite decide_False by (rewrite div10_0; lia). rewrite app_length in *. cbn in *.
      replace (length pre + (length ds' + 1) - 1)%nat with (length pre + length ds')%nat by lia.
      rewrite (IH (n / 10) ds' pre mid' ((48 + n mod 10) :: post) Hd'); [|apply Z.div_pos; lia|lia|lia].
      unfold ascii_digits. rewrite map_app, <- !app_assoc. done.
Qed.

(** C18.  For every int except INT_MIN and every buffer of at least 12 characters, itoa_n writes, from the start of
    the buffer, '-' if the number is negative, then the decimal digits of its absolute value without leading zeros, then NUL;
    the rest of the buffer is unchanged. *)
Theorem C18_itoa_writes_decimal : forall (i : Z) (b : list Z),
  - 2^31 < i < 2^31 -> (12 <= length b)%nat ->
  exists ds, decimal_of (Z.abs i) ds /\
    let text := (if decide (i < 0) then [45] else []) ++ map (fun d => 48 + d) ds ++ [0] in
    itoa_n i b = Some (text ++ drop (length text) b).
Proof.
  intros i b Hi Hb. destruct (decimal_exists (Z.abs i)) as [ds Hd]; [lia|]. exists ds. split; [done|].
  assert (Hlen : (length ds <= 10)%nat) by (apply (digits_fuel 9 (Z.abs i)); [done|lia|cbn; lia]).
  assert (Hgen : forall pre b', pre ++ b' = pre ++ b' -> (11 <= length b')%nat ->
    (p ← count_digits 11 (Z.abs i) (length pre); b ← wr (pre ++ b') p 0; write_digits 11 b (Z.abs i) p) =
    Some (pre ++ ascii_digits ds ++ [0] ++ drop (length ds + 1) b')).
  { intros pre b' _ Hb'. rewrite (count_ok 11 (Z.abs i) ds) by (done || lia). cbn [mbind option_bind].
    assert (Hsplit : exists mid x post, b' = mid ++ x :: post /\ length mid = length ds).
    { exists (take (length ds) b'). destruct (lookup_lt_is_Some_2 b' (length ds)) as [x Hx]; [lia|]. exists x, (drop (S (length ds)) b').
      split; [by rewrite take_drop_middle|]. rewrite take_length. lia. }
    destruct Hsplit as (mid & x & post & -> & Hmid).
    rewrite wr_Some by (rewrite !app_length; cbn; lia).
    replace (length pre + length ds)%nat with (length (pre ++ mid)) at 1 by (rewrite app_length; lia).
    rewrite app_assoc, insert_app_at by exact mid. rewrite <- app_assoc. cbn [mbind option_bind].
    rewrite (write_ok 11 (Z.abs i) ds pre mid (0 :: post)) by (done || lia).
    do 3 f_equal. replace (drop (length ds + 1) (mid ++ x :: post)) with post; [done|].
    rewrite <- Hmid, <- drop_drop, drop_app. done. }
  unfold itoa_n. destruct (decide (i < 0)) as [Hneg|Hpos]; cbv zeta.
  - destruct b as [|b0 b]; [cbn in Hb; lia|]. cbn in Hb. rewrite wr_Some by (cbn; lia). cbn [mbind option_bind].
    rewrite decide_False by lia. cbn [insert list_insert]. replace (i * -1) with (Z.abs i) by lia.
    specialize (Hgen [45] b eq_refl ltac:(lia)). cbn [length app] in Hgen. etransitivity; [exact Hgen|].
    f_equal. unfold ascii_digits. cbn [app length]. f_equal. rewrite <- app_assoc. f_equal.
    rewrite app_length, map_length. cbn. done.
  - cbn [mbind option_bind]. rewrite (Z.abs_eq i) in * by lia.
    specialize (Hgen [] b eq_refl ltac:(lia)). cbn [length app] in Hgen. etransitivity; [exact Hgen|].
    f_equal. unfold ascii_digits. cbn [app length]. rewrite <- app_assoc. f_equal.
    rewrite app_length, map_length. done.
Qed.
Print Assumptions C18_itoa_writes_decimal.

(** Reading the text back gives the number: the decimal notation determines it. *)
Theorem C18_text_determines_number : forall n m ds, decimal_of n ds -> decimal_of m ds -> n = m.
Proof. intros n m ds (<- & _) (<- & _). done. Qed.

(** INT_MIN: the negation overflows, whatever the buffer. *)
Theorem C18_int_min_refuted : forall b, itoa_n (- 2^31) b = None.
Proof. intros [|x b]; done. Qed.

Example C18_example : itoa_n (-120) (replicate 13 7) = Some [45; 49; 50; 48; 0; 7; 7; 7; 7; 7; 7; 7; 7].
Proof. reflexivity. Qed.
Example C18_example0 : itoa_n 0 (replicate 12 7) = Some [48; 0; 7; 7; 7; 7; 7; 7; 7; 7; 7; 7].
Proof. reflexivity. Qed.
