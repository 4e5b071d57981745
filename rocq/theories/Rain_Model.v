(** Model of the parts of a training step of src/rainbow.c:1584-1882 (train_rainbow) that choose the
    batch and prepare what the network is trained with: the reward sampling (1610-1704) with
    utils.c:1422-1433 subtracted_value_rewards and 1485-1543 weighted_random_sample_rewards, the
    importance weights of the ranked sampling (1751-1760) and the calls that compute the td error
    (1763-1772).  Ranked sampling itself is Cumul_Model.sample_batch, the n-step returns are
    NStep_Model, the update of the priorities is Replay_Model / Rewards_Model.

    Numbers are exact reals (C: float/double).  [None] is an access outside an array, a division by a
    zero counter or, for the fuelled function, no termination. *)
From Verif Require Import RealSum Heap_Model Cumul_Model Rewards_Spec Rewards_Model Rain_Spec.
Open Scope nat_scope.

(** C pow(x, y) for x >= 0 and y >= 0: pow(0,0) = 1 and pow(0,y) = 0 *)
Definition powc (x y : R) : R :=
  if decide (x = 0%R) then (if decide (y = 0%R) then 1%R else 0%R) else Rpower x y.

Section rain.
  Context (alpha beta : R).

  (** utils.c:1422-1433 subtracted_value_rewards *)
  Definition subtracted_rewards (index : nat) (cnts : list nat) (taken : list nat) : option R :=
    for_loop (length taken) 0 (fun i ret =>
      t ← rd taken i;
      if inside (take i taken) t then Some ret
      else
        c ← rd cnts t;
        if (0 <? c) && value_is_child t index then x ← inv_pow alpha c; Some (ret + x)%R else Some ret) 0%R.

  (** utils.c:1485-1543 weighted_random_sample_rewards; the result [size] means "nothing found" *)
  Fixpoint sample_rewards (fuel : nat) (cum : list R) (cnts : list nat) (taken : list nat) (size : nat) (sum : R)
      (index : nat) (rv : R) : option nat :=
    match fuel with
    | O => None
    | S f =>
        if decide (size <= index) then (if decide (index = 0) then None else Some (index - 1))
        else
          c ← rd cnts index;
          let live := (0 <? c) && negb (inside taken index) in
          v ← (if live then x ← inv_pow alpha c; Some (x / sum)%R else Some 0%R);
          if (if live then (if Rle_dec rv v then true else false) else false) then Some index
          else
            let left := 2 * index + 1 in
            let right := 2 * index + 2 in
            let rv1 := (rv - v)%R in
            if decide (size <= left) then Some (if 0 <? c then index else size)
            else
              cl ← rd cnts left;
              if decide (size <= right) then Some (if 0 <? cl then left else size)
              else
                v_left ← (if (0 <? cl) && negb (inside taken left) then inv_pow alpha cl else Some 0%R);
                sub ← subtracted_rewards left cnts taken;
                cuml ← rd cum left;
                let share := ((v_left + cuml - sub) / sum)%R in
                if Rle_dec rv1 share then
                  r1 ← sample_rewards f cum cnts taken size sum left rv1;
                  r2 ← (if decide (r1 = size) then sample_rewards f cum cnts taken size sum right (rv1 - share)%R else Some r1);
                  Some (if (0 <? c) && bool_decide (r2 = size) then index else r2)
                else
                  r1 ← sample_rewards f cum cnts taken size sum right (rv1 - share)%R;
                  r2 ← (if decide (r1 = size) then sample_rewards f cum cnts taken size sum left rv1 else Some r1);
                  Some (if (0 <? c) && bool_decide (r2 = size) then index else r2)
    end.

  (** rainbow.c:1625-1633: 1/length of a class that is not exhausted, 0 otherwise (all three start at 0) *)
  Definition raw_share (taken : nat) (len : Z) : R :=
    if (Z.of_nat taken <? len)%Z then (1 / IZR len)%R else 0%R.

  (** rainbow.c:1635-1703: the class a draw [samp] is sent to; tn, tp, tz of the ln, lp, lz transitions
      with a negative, positive, zero reward are already taken *)
  Definition pick_class (tn tp tz : nat) (ln lp lz : Z) (samp : R) : class :=
    let neg_p := powc (raw_share tn ln) beta in
    let pos_p := powc (raw_share tp lp) beta in
    let neu_p := powc (raw_share tz lz) beta in
    let prob_sum := (neg_p + pos_p + neu_p)%R in
    let neg_s := (neg_p / prob_sum)%R in
    let pos_s := (pos_p / prob_sum)%R in
    if (Z.of_nat tn <? ln)%Z then
      if Rle_dec samp neg_s then Negative
      else if (Z.of_nat tp <? lp)%Z then
        if Rle_dec (samp - neg_s) pos_s then Positive else Neutral
      else Neutral
    else if (Z.of_nat tp <? lp)%Z then
      if Rle_dec samp pos_s then Positive else Neutral
    else Neutral.

  (** the local variables of the loop: batch[0..i), and of each class its part of the batch
      (negative_batch, positive_batch, neutral_batch) and its remaining sum *)
  Record part := mkPart { ptaken : list nat; psum : R }.
  Record bst := mkB { bbatch : list nat; bneg : part; bpos : part; bneu : part }.
  Definition bpart (b : bst) (k : class) : part :=
    match k with Positive => bpos b | Negative => bneg b | Neutral => bneu b end.

  (** rainbow.c:1647-1652 (= 1656-1661, 1664-1669, 1673-1678, 1683-1688, 1691-1696, 1699-1704): one draw in class k *)
  Definition draw_in (r : rstate) (b : bst) (k : class) (p : R) : option bst :=
    let c := class_state r k in
    let q := bpart b k in
    val ← sample_rewards (rcap r + 1) (ccum c) (cnt c) (ptaken q) (rcap r) (psum q) 0 p;
    sum1 ← (if inside (bbatch b) val then Some (psum q)
            else m ← rd (cnt c) val; x ← inv_pow alpha m; Some (psum q - x)%R);
    let q1 := mkPart (ptaken q ++ [val]) sum1 in
    let batch1 := bbatch b ++ [val] in
    Some (match k with
          | Negative => mkB batch1 q1 (bpos b) (bneu b)
          | Positive => mkB batch1 (bneg b) q1 (bneu b)
          | Neutral => mkB batch1 (bneg b) (bpos b) q1
          end).

  (** rainbow.c:1618-1705: one iteration, with the two values of r2() *)
  Definition draw_step (r : rstate) (b : bst) (d : R * R) : option bst :=
    draw_in r b (pick_class (length (ptaken (bneg b))) (length (ptaken (bpos b))) (length (ptaken (bneu b)))
                            (clen (neg r)) (clen (pos r)) (clen (neu r)) d.1) d.2.
  Fixpoint draw_steps (r : rstate) (b : bst) (draws : list (R * R)) : option bst :=
    match draws with [] => Some b | d :: ds => b' ← draw_step r b d; draw_steps r b' ds end.

  (** rainbow.c:1610-1616: nothing taken, the sums of the three classes *)
  Definition first_bst (r : rstate) : bst :=
    mkB [] (mkPart [] (csum (neg r))) (mkPart [] (csum (pos r))) (mkPart [] (csum (neu r))).
  (** rainbow.c:1610-1705: the batch; [draws] are the values (samp, p) of r2() *)
  Definition reward_batch (r : rstate) (draws : list (R * R)) : option (list nat) :=
    b ← draw_steps r (first_bst r) draws; Some (bbatch b).

  (** rainbow.c:1301-1302: ranked_values[k] = pow(1/(k+1), alpha) *)
  Definition ranked_value (k : nat) : R := Rpower (/ INR (k + 1)) alpha.
  Definition ranked_sum (length : nat) : R := sumn length ranked_value.

  (** rainbow.c:1751-1752 (before the normalisation): weighted_errors[i] for the entry batch[i] = slot;
      ranked_values has max_buffer_size entries, slot < length *)
  Definition raw_weight (length slot : nat) : R :=
    Rpower (1 / (INR length * (ranked_value slot / ranked_sum length)))%R beta.
  (** rainbow.c:1756-1760: the constant all weights are multiplied by *)
  Definition max_factor (length : nat) : R :=
    (1 / Rpower (1 / (INR length * (ranked_value (length - 1) / ranked_sum length))) beta)%R.
  Definition importance_weights (length : nat) (batch : list nat) : list R :=
    map (fun slot => (raw_weight length slot * max_factor length)%R) batch.
End rain.

(** rainbow.c:1763-1772 with multi_core_dueling_categorical_dqn.c:248-275: the networks are trained in
    groups of [threads]; thread j of the group that starts at i gets entry j of every array it was
    handed.  All arrays but one are handed over from their entry i; the discounts are handed over from
    their entry 0.  An element is trained with the record [job] of what its thread is given. *)
Record job {St : Type} := mkJob { j_state : St; j_reward : R; j_action : nat; j_next : St; j_nonterminal : bool; j_lambda : R; j_weight : R }.
Arguments job : clear implicits.
Arguments mkJob {St}.
Section train.
  Context {St : Type}.
  Record arrays := mkArrays { a_state : list St; a_reward : list R; a_action : list nat; a_next : list St;
                              a_nonterminal : list bool; a_lambda : list R; a_weight : list R }.
  (** multi_core_dueling_categorical_dqn.c:254-269 for thread j; i is the offset of lines 1767 *)
  Definition thread_job (a : arrays) (i j : nat) : option (job St) :=
    st ← rd (a_state a) (i + j); rw ← rd (a_reward a) (i + j); ac ← rd (a_action a) (i + j);
    nx ← rd (a_next a) (i + j); nt ← rd (a_nonterminal a) (i + j); la ← rd (a_lambda a) j; we ← rd (a_weight a) (i + j);
    Some (mkJob st rw ac nx nt la we).
  Fixpoint group (a : arrays) (i j cnt : nat) : option (list (job St)) :=
    match cnt with
    | O => Some []
    | S c => x ← thread_job a i j; l ← group a i (S j) c; Some (x :: l)
    end.
  (** for(i = 0; i < batch_size; i += threads) *)
  Fixpoint train_groups (fuel : nat) (a : arrays) (threads batch_size i : nat) : option (list (job St)) :=
    match fuel with
    | O => None
    | S f =>
        if decide (batch_size <= i) then Some []
        else g ← group a i 0 (Nat.min threads (batch_size - i)); l ← train_groups f a threads batch_size (i + threads); Some (g ++ l)
    end.
  Definition train_jobs (a : arrays) (threads batch_size : nat) : option (list (job St)) :=
    train_groups (batch_size + 1) a threads batch_size 0.
  (** the arrays have at least m entries (rainbow.c init_rainbow allocates batch_size entries of each) *)
  Definition long (a : arrays) (m : nat) : Prop :=
    m <= length (a_state a) /\ m <= length (a_reward a) /\ m <= length (a_action a) /\ m <= length (a_next a) /\
    m <= length (a_nonterminal a) /\ m <= length (a_lambda a) /\ m <= length (a_weight a).
End train.
Arguments arrays : clear implicits.
