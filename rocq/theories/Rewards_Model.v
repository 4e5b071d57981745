(** Model of the reward-sampling bookkeeping of src/rainbow.c: add_buffer_state_reward_sampling
    (1324-1359), update_buffer_state_reward_sampling (1401-1526), the part of add_experience that
    calls them (1530-1582) and the update after training (1844-1877).  The same text is in
    src/efficientzero.c:423-460 (add_buffer_state_reward_sampling_efficientzero), 500-628
    (update_buffer_state_reward_sampling_efficientzero) and 629-685 (add_experience_efficientzero), without the
    update after training, which is commented out there.

    The three classes have the same four fields in C (positive_ranked_values,
    positive_recursive_cumulative_ranked_values, positive_rewards_length,
    positive_sum_error_priorization_buffer, ...); [cls] is one of them.  Exact reals; a division by a
    zero counter (infinity in C) is [None]. *)
From Verif Require Import RealSum Heap_Model Cumul_Model Replay_Spec Rewards_Spec.
Open Scope nat_scope.

Section rewards.
  Context (alpha : R).

  Record cls := mkCls { cnt : list nat; ccum : list R; clen : Z; csum : R }.
  Definition init_cls (n : nat) : cls := mkCls (replicate n 0) (replicate n 0%R) 0 0%R.

  (** pow(1.0/((double)count), alpha_priorization) *)
  Definition inv_pow (count : nat) : option R :=
    if decide (count = 0) then None else Some (Rpower (/ INR count) alpha).

  (** rainbow.c:1327-1335 (= 1338-1346, 1349-1357, and the second half of each class change, e.g. 1423-1427):
      count = 1, cumulative tree += 1, length++, sum += 1 *)
  Definition cls_enter (c : cls) (index : nat) : option cls :=
    cnt1 ← wr (cnt c) index 1;
    cum1 ← update_up (index + 1) (ccum c) index true 1%R;
    Some (mkCls cnt1 cum1 (clen c + 1) (csum c + 1)%R).

  (** rainbow.c:1416-1420 (= 1432-1436, ...): sum -= prev, count = 0, cumulative tree -= prev, length-- *)
  Definition cls_leave (c : cls) (index : nat) : option cls :=
    k ← rd (cnt c) index; prev ← inv_pow k;
    cnt1 ← wr (cnt c) index 0;
    cum1 ← update_up (index + 1) (ccum c) index true (- prev)%R;
    Some (mkCls cnt1 cum1 (clen c - 1) (csum c - prev)%R).

  (** rainbow.c:1409-1413 (= 1449-1453, 1488-1492): p = 1 - prev, sum += p, count = 1, cumulative tree += p *)
  Definition cls_reset (c : cls) (index : nat) : option cls :=
    k ← rd (cnt c) index; prev ← inv_pow k;
    let p := (1 - prev)%R in
    cnt1 ← wr (cnt c) index 1;
    cum1 ← update_up (index + 1) (ccum c) index true p;
    Some (mkCls cnt1 cum1 (clen c) (csum c + p)%R).

  (** rainbow.c:1848-1854 (= 1858-1864, 1868-1874): the counter of a used transition is incremented *)
  Definition cls_bump (c : cls) (index : nat) : option cls :=
    k ← rd (cnt c) index; old ← inv_pow k;
    cnt1 ← wr (cnt c) index (k + 1);
    new ← inv_pow (k + 1);
    cum1 ← update_up (index + 1) (ccum c) index true (new - old)%R;
    Some (mkCls cnt1 cum1 (clen c) (csum c - old + new)%R).

  Record rstate := mkR { rcap : nat; rcur : nat; rews : list (option sign); pos : cls; neg : cls; neu : cls }.
  Definition init_rstate (n : nat) : rstate := mkR n 0 (replicate n None) (init_cls n) (init_cls n) (init_cls n).

  (** rainbow.c:1324-1359: rew > 0, else rew < 0, else *)
  Definition add_reward (p n z : cls) (index : nat) (s : sign) : option (cls * cls * cls) :=
    match s with
    | Pos => p' ← cls_enter p index; Some (p', n, z)
    | Neg => n' ← cls_enter n index; Some (p, n', z)
    | Zero | NaN => z' ← cls_enter z index; Some (p, n, z')
    end.

  (** rainbow.c:1401-1526: the nine cases (previous reward, new reward).  The last branch of the
      neutral block is "else" after [reward == 0] and [reward > 0], so a NaN goes to the negative
      class there, and to the neutral class elsewhere. *)
  Definition replace_reward (p n z : cls) (index : nat) (prev s : sign) : option (cls * cls * cls) :=
    match prev, s with
    | Pos, Pos => p' ← cls_reset p index; Some (p', n, z)
    | Pos, Neg => p' ← cls_leave p index; n' ← cls_enter n index; Some (p', n', z)
    | Pos, (Zero | NaN) => p' ← cls_leave p index; z' ← cls_enter z index; Some (p', n, z')
    | Neg, Neg => n' ← cls_reset n index; Some (p, n', z)
    | Neg, Pos => n' ← cls_leave n index; p' ← cls_enter p index; Some (p', n', z)
    | Neg, (Zero | NaN) => n' ← cls_leave n index; z' ← cls_enter z index; Some (p, n', z')
    | (Zero | NaN), Zero => z' ← cls_reset z index; Some (p, n, z')
    | (Zero | NaN), Pos => z' ← cls_leave z index; p' ← cls_enter p index; Some (p', n, z')
    | (Zero | NaN), (Neg | NaN) => z' ← cls_leave z index; n' ← cls_enter n index; Some (p, n', z')
    end.

  (** rainbow.c:1530-1582 add_experience with sampling_flag == REWARD_SAMPLING *)
  Definition store_reward (r : rstate) (s : sign) : option rstate :=
    old ← rd (rews r) (rcur r);
    rews1 ← wr (rews r) (rcur r) (Some s);
    t ← match old with
        | None => add_reward (pos r) (neg r) (neu r) (rcur r) s
        | Some prev => replace_reward (pos r) (neg r) (neu r) (rcur r) prev s
        end;
    Some (mkR (rcap r) ((rcur r + 1) mod rcap r) rews1 t.1.1 t.1.2 t.2).

  (** rainbow.c:1844-1877, for one (first occurrence of a) sampled slot *)
  Definition use_slot (r : rstate) (slot : nat) : option rstate :=
    o ← rd (rews r) slot; s ← o;
    match s with
    | Pos => p' ← cls_bump (pos r) slot; Some (mkR (rcap r) (rcur r) (rews r) p' (neg r) (neu r))
    | Neg => n' ← cls_bump (neg r) slot; Some (mkR (rcap r) (rcur r) (rews r) (pos r) n' (neu r))
    | Zero | NaN => z' ← cls_bump (neu r) slot; Some (mkR (rcap r) (rcur r) (rews r) (pos r) (neg r) z')
    end.

  Definition rstep (r : rstate) (o : rop) : option rstate :=
    match o with Store s => store_reward r s | Use slot => use_slot r slot end.
  Fixpoint rrun (r : rstate) (h : list rop) : option rstate :=
    match h with [] => Some r | o :: h => r' ← rstep r o; rrun r' h end.

  Definition class_state (r : rstate) (k : class) : cls :=
    match k with Positive => pos r | Negative => neg r | Neutral => neu r end.
End rewards.
