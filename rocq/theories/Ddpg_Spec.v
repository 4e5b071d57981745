(** What a training step of a deep deterministic policy gradient agent has to be: written down without the
    networks' buffers and without copies of networks.  [p1] is the policy; [p2] (states), [p3] (actions) and
    [p4] together are the critic. *)
From Verif Require Import Base RealSum Ddpg_Model.
From Coq Require Import Reals.
Open Scope nat_scope.

(** one remembered transition *)
Record trans := mkTrans { t_state : vec; t_next : vec; t_action : vec; t_reward : R; t_terminal : Z }.

Section spec.
  Context {P G H : Type} (g0 : G) (gadd : G -> G -> G).
  Context (fwd : P -> vec -> vec) (bwd : P -> vec -> vec -> G * vec) (lossd : P -> vec -> vec -> vec).
  Context (upd : H -> Z -> P -> G -> P) (mix : R -> P -> P -> P).

  (** the critic's joint features for a state and an action, and its value *)
  Definition joint (p2 p3 : P) (s a : vec) : vec := fwd p2 s ++ fwd p3 a.
  Definition qvalue (p2 p3 p4 : P) (s a : vec) : vec := fwd p4 (joint p2 p3 s a).

  (** the bootstrapped value of the next state by the target networks *)
  Definition next_value (q1 q2 q3 q4 : P) (t : trans) : R := hd 0%R (qvalue q2 q3 q4 (t_next t) (fwd q1 (t_next t))).
  Definition target_with (gamma v : R) (t : trans) : R := (t_reward t + gamma * (1 - IZR (t_terminal t)) * v)%R.

  (** the derivative that reaches the joint features when the critic's value is to become y *)
  Definition critic_err (p2 p3 p4 : P) (t : trans) (y : R) : vec :=
    snd (bwd p4 (joint p2 p3 (t_state t) (t_action t)) (lossd p4 (qvalue p2 p3 p4 (t_state t) (t_action t)) [y])).
  (** the derivatives of the three parts of the critic for one transition; m2o is the number of features of
      the state *)
  Definition grad4 (p2 p3 p4 : P) (t : trans) (y : R) : G :=
    fst (bwd p4 (joint p2 p3 (t_state t) (t_action t)) (lossd p4 (qvalue p2 p3 p4 (t_state t) (t_action t)) [y])).
  Definition grad3 (m2o : nat) (p2 p3 p4 : P) (t : trans) (y : R) : G := fst (bwd p3 (t_action t) (drop m2o (critic_err p2 p3 p4 t y))).
  Definition grad2 (m2o : nat) (p2 p3 p4 : P) (t : trans) (y : R) : G := fst (bwd p2 (t_state t) (take m2o (critic_err p2 p3 p4 t y))).

  (** the derivative of minus the critic's value of the policy's own action, for one transition *)
  Definition grad1 (m2o : nat) (p1 p2 p3 p4 : P) (t : trans) : G :=
    let s := t_state t in
    let a := fwd p1 s in
    let e := snd (bwd p4 (joint p2 p3 s a) [(-1)%R]) in
    let ea := snd (bwd p3 a (drop m2o e)) in
    fst (bwd p1 s ea).

  (** the sum over the batch *)
  Definition gsum (l : list G) : G := fold_left gadd l g0.

  (** one step of the four networks for given target values ys; [h_critic], [h_policy] hyper parameters;
      [c4], [c3], [c2] the time steps the three updates of the critic are told *)
  Definition learn (m2o : nat) (h_critic h_policy : H) (c4 c3 c2 c1 : Z) (batch : list (trans * R)) (p : P * P * P * P) : P * P * P * P :=
    let '(p1, p2, p3, p4) := p in
    let p4' := upd h_critic c4 p4 (gsum ((λ ty, grad4 p2 p3 p4 (fst ty) (snd ty)) <$> batch)) in
    let p3' := upd h_critic c3 p3 (gsum ((λ ty, grad3 m2o p2 p3 p4 (fst ty) (snd ty)) <$> batch)) in
    let p2' := upd h_critic c2 p2 (gsum ((λ ty, grad2 m2o p2 p3 p4 (fst ty) (snd ty)) <$> batch)) in
    let p1' := upd h_policy c1 p1 (gsum ((λ ty, grad1 m2o p1 p2' p3' p4' (fst ty)) <$> batch)) in
    (p1', p2', p3', p4').
  Definition soft (tau : R) (p q : P * P * P * P) : P * P * P * P :=
    let '(p1, p2, p3, p4) := p in let '(q1, q2, q3, q4) := q in (mix tau p1 q1, mix tau p2 q2, mix tau p3 q3, mix tau p4 q4).
End spec.

(** what is assumed of the networks' functions: outputs have the size of the network, derivatives for the
    input the size of the input, learning does not change the size *)
Record laws {P G H : Type} (g0 : G) (gadd : G -> G -> G) (fwd : P -> vec -> vec) (bwd : P -> vec -> vec -> G * vec)
  (upd : H -> Z -> P -> G -> P) (mix : R -> P -> P -> P) (idle : P -> vec) (osize : P -> nat) : Prop := mkLaws {
  l_unit : ∀ g, gadd g0 g = g;
  l_fwd : ∀ p x, length (fwd p x) = osize p;
  l_bwd : ∀ p x e, length (snd (bwd p x e)) = length x;
  l_idle : ∀ p, length (idle p) = osize p;
  l_upd : ∀ h t p g, osize (upd h t p g) = osize p;
  l_mix : ∀ tau p q, osize (mix tau p q) = osize q }.

(** how an agent of the program is read as transitions and networks *)
Section view.
  Context {P G H : Type} (g0 : G) (idle : P -> vec) (osize : P -> nat).
  Notation net := (@net P G). Notation slot := (@slot P G). Notation ddpg := (@ddpg P G H).

  Definition trans_of (s : slot) : trans := mkTrans (st s) (st2 s) (action s) (reward s) (terminal s).
  Definition learned (d : ddpg) : P * P * P * P := (par (nm1 d), par (nm2 d), par (nm3 d), par (nm4 d)).
  Definition targets (s : slot) : P * P * P * P := (par (tn1 s), par (tn2 s), par (tn3 s), par (tn4 s)).

  (** the copies agree with the networks and nothing is left of earlier derivatives *)
  Definition slot_ready (p1 p2 p3 p4 : P) (m2o m3o : nat) (s : slot) : Prop :=
    par (bn1 s) = p1 /\ par (bn2 s) = p2 /\ par (bn3 s) = p3 /\ par (bn4 s) = p4 /\
    grad (bn1 s) = g0 /\ grad (bn2 s) = g0 /\ grad (bn3 s) = g0 /\ grad (bn4 s) = g0 /\
    osize (par (tn2 s)) = m2o /\ osize (par (tn3 s)) = m3o /\ 1 <= osize (par (tn4 s)).
  Definition ready (d : ddpg) : Prop :=
    grad (nm1 d) = g0 /\ grad (nm2 d) = g0 /\ grad (nm3 d) = g0 /\ grad (nm4 d) = g0 /\
    osize (par (nm2 d)) = m2_output d /\ osize (par (nm3 d)) = m3_output d /\
    Forall (slot_ready (par (nm1 d)) (par (nm2 d)) (par (nm3 d)) (par (nm4 d)) (m2_output d) (m3_output d)) (slots d).

  (** what is in the output buffer of the last target network after a reset *)
  Definition idle_value (s : slot) : R := hd 0%R (idle (par (tn4 s))).

  (** the remembered transitions with the targets that are computed from that *)
  Definition batch_of (d : ddpg) : list (trans * R) :=
    (λ s, (trans_of s, target_with (gamma d) (idle_value s) (trans_of s))) <$> slots d.

  (** the user puts other transitions into the agent *)
  Definition set_data (s : slot) (t : trans) : slot :=
    mkSlot (tn1 s) (tn2 s) (tn3 s) (tn4 s) (bn1 s) (bn2 s) (bn3 s) (bn4 s) (t_state t) (t_next t) (t_action t) (t_reward t) (t_terminal t).
  Definition feed (l : list trans) (d : ddpg) : ddpg :=
    mkDdpg (nm1 d) (nm2 d) (nm3 d) (nm4 d) (zip_with set_data (slots d) l) (m2_output d) (m3_output d) (gamma d) (tau d) (hyper1 d) (hyper2 d) (t1 d) (t2 d).
  Definition set_hyper2 (h : H) (d : ddpg) : ddpg :=
    mkDdpg (nm1 d) (nm2 d) (nm3 d) (nm4 d) (slots d) (m2_output d) (m3_output d) (gamma d) (tau d) (hyper1 d) h (t1 d) (t2 d).

  (** a training: before every step the agent gets a new batch *)
  Fixpoint trainings (train : ddpg -> option ddpg) (ls : list (list trans)) (d : ddpg) : option ddpg :=
    match ls with
    | [] => Some d
    | l :: ls => match train (feed l d) with Some d' => trainings train ls d' | None => None end
    end.
End view.
