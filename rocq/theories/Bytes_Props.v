(** C19: byte-order conversion. *)
From Verif Require Import BaseLemmas Bytes_Model.
Open Scope nat_scope.

Section proofs.
  Context {B : Type}.
  Implicit Types m : list B.

  Lemma rev_step_ok o size i m : o + size <= length m -> i < size / 2 ->
    exists m', rev_step o size i m = Some m' /\ length m' = length m /\
      forall k, m' !! k = if decide (k = o + i) then m !! (o + (size - 1 - i)) else if decide (k = o + (size - 1 - i)) then m !! (o + i) else m !! k.
  Proof.
    intros Hl Hi. assert (2 * (size / 2) <= size) by (apply Nat.mul_div_le; lia).
    unfold rev_step. destruct (rd_Some m (o + i)) as [t Ht]; [lia|]. destruct (rd_Some m (o + (size - 1 - i))) as [u Hu]; [lia|].
    rewrite Ht, Hu. cbn [mbind option_bind]. rewrite wr_Some by lia. cbn [mbind option_bind]. rewrite wr_Some by (rewrite insert_length; lia).
    eexists. split; [done|]. split; [by rewrite !insert_length|]. unfold rd in *. intros k.
    destruct (decide (k = o + i)) as [->|].
    - rewrite list_lookup_insert_ne by lia. rewrite list_lookup_insert by lia. done.
    - destruct (decide (k = o + (size - 1 - i))) as [->|].
      + rewrite list_lookup_insert by (rewrite insert_length; lia). done.
      + by rewrite !list_lookup_insert_ne by done.
  Qed.

  Lemma reverse_ptr_lookup m o size : o + size <= length m ->
    exists m', reverse_ptr m o size = Some m' /\ length m' = length m /\
      forall k, m' !! k = if decide (o <= k < o + size) then m !! (o + (size - 1 - (k - o))) else m !! k.
  Proof.
    intros Hl. unfold reverse_ptr. destruct (Nat.leb_spec size 1) as [H1|H1].
    - exists m. split; [done|]. split; [done|]. intros k. destruct (decide _); [|done]. f_equal. lia.
    - destruct (for_loop_inv (fun i s => length s = length m /\ forall k, s !! k =
         if decide (o <= k < o + i \/ o + (size - i) <= k < o + size) then m !! (o + (size - 1 - (k - o))) else m !! k)
         (rev_step o size) (size / 2) 0 m) as (m' & E & Hlen & Hm').
      + split; [done|]. intros k. destruct (decide _); [lia|done].
      + intros i s Hi [Hls Hs]. destruct (rev_step_ok o size i s) as (s' & E & Hl' & Hk); [lia|lia|].
        assert (2 * (size / 2) <= size) by (apply Nat.mul_div_le; lia).
        exists s'. split; [done|]. split; [lia|]. intros k. rewrite Hk.
        destruct (decide (k = o + i)) as [->|].
        * rewrite Hs. rewrite decide_False by lia. rewrite decide_True by lia. f_equal. lia.
        * destruct (decide (k = o + (size - 1 - i))) as [->|].
          -- rewrite Hs. rewrite decide_False by lia. rewrite decide_True by lia. f_equal. lia.
          -- rewrite Hs. destruct (decide (o <= k < o + i ∨ o + (size - i) <= k < o + size)), (decide (o <= k < o + S i ∨ o + (size - S i) <= k < o + size)); try done; lia.
      + exists m'. split; [done|]. split; [done|]. intros k. rewrite Hm'. cbn [plus].
        pose proof (Nat.div_mod size 2 ltac:(lia)). pose proof (Nat.mod_upper_bound size 2 ltac:(lia)).
        destruct (decide (o <= k < o + size / 2 ∨ o + (size - size / 2) <= k < o + size)), (decide (o <= k < o + size)); try done; try lia.
        f_equal. lia.
  Qed.

  Lemma reverse_ptr_ok m o size : o + size <= length m ->
    reverse_ptr m o size = Some (take o m ++ reverse (take size (drop o m)) ++ drop (o + size) m).
  Proof.
    intros Hl. destruct (reverse_ptr_lookup m o size Hl) as (m' & -> & Hlen & Hk). f_equal. apply list_eq. intros k. rewrite Hk.
    assert (Hto : length (take o m) = o) by (rewrite take_length; lia).
    assert (Hts : length (take size (drop o m)) = size) by (rewrite take_length, drop_length; lia).
    destruct (decide (o <= k < o + size)).
    - rewrite lookup_app_r by lia. rewrite Hto. rewrite lookup_app_l by (rewrite reverse_length; lia).
      rewrite reverse_lookup by lia. rewrite Hts, lookup_take by lia. rewrite lookup_drop. f_equal. lia.
    - destruct (decide (k < o)).
      + rewrite lookup_app_l by lia. by rewrite lookup_take by lia.
      + rewrite lookup_app_r by lia. rewrite lookup_app_r by (rewrite reverse_length; lia). rewrite reverse_length, Hto, Hts, lookup_drop. f_equal. lia.
  Qed.
End proofs.

(** C19 (one value).  For every region, offset and size inside it, reverse_ptr reverses exactly those bytes. *)
Theorem C19_reverse_ptr_partial : forall (B : Type) (before value after : list B),
  reverse_ptr (before ++ value ++ after) (length before) (length value) = Some (before ++ reverse value ++ after).
Proof.
  intros B b v a. rewrite reverse_ptr_ok by (rewrite !app_length; lia). do 2 f_equal.
  - by rewrite take_app.
  - rewrite drop_app, take_app. f_equal. rewrite app_assoc, drop_app_alt; [done|]. by rewrite app_length.
Qed.
Print Assumptions C19_reverse_ptr_partial.

(** ... hence twice is the identity. *)
Theorem C19_reverse_ptr_involution_partial : forall (B : Type) (before value after : list B) m,
  reverse_ptr (before ++ value ++ after) (length before) (length value) = Some m ->
  reverse_ptr m (length before) (length value) = Some (before ++ value ++ after).
Proof.
  intros B b v a m. rewrite C19_reverse_ptr_partial. intros H. injection H as <-.
  rewrite <- (reverse_length v), C19_reverse_ptr_partial. by rewrite reverse_involutive.
Qed.

(** On a little-endian host conversion is the identity. *)
Theorem C19_little_endian_identity : forall (B : Type) (p data : list B) size len, convert_data true p data size len = Some data.
Proof. done. Qed.

(** On a big-endian host it never converts anything: the data is left as it is whenever the call is defined ... *)
Theorem C19_big_endian_conversion_refuted : forall (B : Type) (p data : list B) size len m,
  convert_data false p data size len = Some m -> m = data.
Proof.
  intros B p data size len m. unfold convert_data, swap_array_bytes_order. destruct (_ || _); [congruence|].
  destruct (for_loop _ _ _ _); cbn; congruence.
Qed.

Lemma reverse_ptr_oob {B} (m : list B) o size : 2 <= size -> length m < o + size -> reverse_ptr m o size = None.
Proof.
  intros Hs Hl. unfold reverse_ptr. destruct (Nat.leb_spec size 1); [lia|].
  assert (Hd : size / 2 <> 0) by (intros H0; apply Nat.div_small_iff in H0; lia).
  destruct (size / 2) as [|c]; [done|]. cbn [for_loop].
  assert (rev_step o size 0 m = None) as ->; [|done]. unfold rev_step, rd.
  rewrite (lookup_ge_None_2 m (o + (size - 1 - 0))) by lia. by destruct (m !! (o + 0)).
Qed.

(** ... and for arrays of more than 8 bytes (the size of the local pointer) it writes outside it. *)
Theorem C19_big_endian_out_of_bounds_refuted : forall (B : Type) (p data : list B) size len,
  length p = 8 -> 2 <= size -> 8 < size * len -> convert_data false p data size len = None.
Proof.
  intros B p data size len Hp Hs Hl. unfold convert_data, swap_array_bytes_order.
  destruct (Nat.leb_spec size 1); [lia|]. destruct (Nat.eqb_spec len 0) as [|Hlen0]; [lia|]. cbn [orb].
  assert (forall n i a, length a = 8 -> 8 < (i + n) * size -> n <> 0 -> for_loop n i (fun i (a : list B) => reverse_ptr a (i * size) size) a = None) as Hgen; [|rewrite (Hgen len 0 p Hp); [done|lia|done]].
  induction n as [|n IH]; intros i a Ha Hlt Hn; [done|]. cbn [for_loop].
  destruct (decide (i * size + size <= 8)) as [Hin|Hout].
  - rewrite reverse_ptr_ok by lia. cbn [mbind option_bind]. apply IH.
    + rewrite !app_length, reverse_length, !take_length, !drop_length. lia.
    + lia.
    + intros ->. nia.
  - rewrite reverse_ptr_oob by lia. done.
Qed.

(** The loop the callers need (over the data itself) would reverse each element in place and be an involution. *)
Theorem C19_intended_loop : forall (B : Type) (elements : list (list B)) (rest : list B) size,
  (forall e, e ∈ elements -> length e = size) ->
  swap_array_intended (concat elements ++ rest) size (length elements) = Some (concat (map reverse elements) ++ rest).
Proof.
  intros B elements rest size Hsz. unfold swap_array_intended. destruct (Nat.leb_spec size 1) as [H1|H1].
  - cbn. do 3 f_equal. induction elements as [|e es IH]; [done|]. cbn. rewrite <- IH by (intros; apply Hsz; by right). f_equal.
    assert (length e = size) by (apply Hsz; by left). destruct e as [|x [|y e]]; [done|done|cbn in *; lia].
  - destruct (Nat.eqb_spec (length elements) 0) as [H0|H0]; [destruct elements; done|]. cbn [orb].
    assert (Hgen : forall es (pre : list B) i, length pre = i * size -> (forall e, e ∈ es -> length e = size) ->
      for_loop (length es) i (fun i (a : list B) => reverse_ptr a (i * size) size) (pre ++ concat es ++ rest) = Some (pre ++ concat (map reverse es) ++ rest)).
    { induction es as [|e es IH]; intros pre i Hp Hes; [done|]. cbn [length for_loop concat map].
      assert (He : length e = size) by (apply Hes; by left).
      rewrite <- Hp, <- He, <- app_assoc, C19_reverse_ptr_partial. cbn [mbind option_bind].
      rewrite (app_assoc pre), He, IH; [by rewrite <- !app_assoc| |intros; apply Hes; by right].
      rewrite app_length, reverse_length. lia. }
    apply (Hgen elements [] 0); done.
Qed.

Example C19_example : reverse_ptr [9;1;2;3;4;8] 1 4 = Some [9;4;3;2;1;8].
Proof. done. Qed.
