(** Model of src/drl.c ddpg_train: one training step of a deep deterministic policy gradient agent.
    A network is what its functions show of it: its parameters (with the state of its optimiser and its
    shape), the partial derivatives, the input of the last forward pass since the last reset, and the
    output buffer.  What a forward pass, a backward pass, the derivative of the loss, an update and the
    soft copy compute are parameters of the model ([fwd], [bwd], [lossd], [upd], [mix]); they are modelled
    in other files.  The calls on all elements of the batch are element-wise (the threads of
    multi_core_model.c work on different networks), so the loops over the batch are grouped by element.
    Exact reals.  [None] is an access outside a buffer, or a backward pass that does not follow the forward
    pass with the same input. *)
From Verif Require Import Base BaseLemmas RealSum.
From Coq Require Import Reals.
Open Scope nat_scope.

Notation vec := (list R).

Section model.
  Context {P G H : Type} (g0 : G) (gadd : G -> G -> G).
  Context (fwd : P -> vec -> vec) (bwd : P -> vec -> vec -> G * vec) (lossd : P -> vec -> vec -> vec).
  Context (upd : H -> Z -> P -> G -> P) (mix : R -> P -> P -> P) (idle : P -> vec).

  Record net := mkNet { par : P; grad : G; act : option vec; out : vec }.

  (** model_tensor_input_ff: drl.c:266-268 etc. *)
  Definition ff (n : net) (x : vec) : net := mkNet (par n) (grad n) (Some x) (fwd (par n) x).
  (** model_tensor_input_bp: the derivatives are added, the derivative for the input is returned *)
  Definition bp (n : net) (x e : vec) : option (net * vec) :=
    if decide (act n = Some x) then
      Some (mkNet (par n) (gadd (grad n) (fst (bwd (par n) x e))) (act n) (out n), snd (bwd (par n) x e))
    else None.
  (** model.c:reset_model (fully_connected_layers.c:1359-1415, convolutional_layers.c:reset_cl): derivatives
      and buffers are reset, the output buffer (model.c:275-313) among them: to 0, or to 1 for a last layer
      with dropout ([idle]).  Networks with edge popup are not modelled. *)
  Definition rst (n : net) : net := mkNet (par n) g0 None (idle (par n)).
  (** model.c:paste_model *)
  Definition paste (m b : net) : net := mkNet (par m) (grad m) (act b) (out b).
  (** model.c:slow_paste_model *)
  Definition slow_paste (tau : R) (m b : net) : net := mkNet (mix tau (par m) (par b)) (grad b) (act b) (out b).
  (** math_functions.c:1176-1182 sum_models_partial_derivatives *)
  Definition sum_grads (m : net) (bs : list net) : net := mkNet (par m) (fold_left gadd (grad <$> bs) (grad m)) (act m) (out m).
  (** update.c:update_model; the time step is read, not changed *)
  Definition update (h : H) (t : Z) (m : net) : net := mkNet (upd h t (par m) (grad m)) (grad m) (act m) (out m).

  (** the networks and data of one element of the batch; llab.h:643-672 *)
  Record slot := mkSlot { tn1 : net; tn2 : net; tn3 : net; tn4 : net; bn1 : net; bn2 : net; bn3 : net; bn4 : net;
    st : vec (* buff1 *); st2 : vec (* buff2 *); action : vec; reward : R; terminal : Z }.
  Record ddpg := mkDdpg { nm1 : net; nm2 : net; nm3 : net; nm4 : net; slots : list slot;
    m2_output : nat; m3_output : nat; gamma : R (* lambda *); tau : R; hyper1 : H; hyper2 : H; t1 : Z; t2 : Z }.

  (** drl.c:270-275, 292-295, 338-341: the input of the last part of the critic, in a buffer of
      m2_output*m3_output numbers *)
  Definition cat (m2o m3o : nat) (o2 o3 : vec) : option vec :=
    if decide (m2o + m3o <= m2o * m3o /\ m2o <= length o2 /\ m3o <= length o3) then Some (take m2o o2 ++ take m3o o3) else None.
  (** drl.c:305-308, 348-350 *)
  Definition slice (m2o m3o : nat) (e : vec) : option vec :=
    if decide (m2o + m3o <= length e) then Some (take m3o (drop m2o e)) else None.

  (** drl.c:266-311 for one element: the target and the derivatives of the critic *)
  Definition critic_phase (m2o m3o : nat) (gamma : R) (s : slot) : option slot :=
    let t1 := ff (tn1 s) (st2 s) in
    let t2 := ff (tn2 s) (st2 s) in
    let t3 := ff (tn3 s) (out t1) in
    x ← cat m2o m3o (out t2) (out t3);
    let t4 := ff (tn4 s) x in
    let t1 := rst t1 in
    let t2 := rst t2 in
    let t3 := rst t3 in
    let t4 := rst t4 in
    q ← rd (out t4) 0;
    let y := (reward s + gamma * (1 - IZR (terminal s)) * q)%R in
    let b2 := ff (bn2 s) (st s) in
    let b3 := ff (bn3 s) (action s) in
    x ← cat m2o m3o (out b2) (out b3);
    let b4 := ff (bn4 s) x in
    r4 ← bp b4 x (lossd (par b4) (out b4) [y]);
    let e := snd (A := net) (B := vec) r4 in
    e3 ← slice m2o m3o e;
    r3 ← bp b3 (action s) e3;
    r2 ← bp b2 (st s) (take m2o e);
    Some (mkSlot t1 t2 t3 t4 (bn1 s) (fst (A := net) (B := vec) r2) (fst (A := net) (B := vec) r3) (fst (A := net) (B := vec) r4) (st s) (st2 s) (action s) (reward s) (terminal s)).

  (** drl.c:326-333 for one element *)
  Definition sync_critic (m2 m3 m4 : net) (s : slot) : slot :=
    mkSlot (tn1 s) (tn2 s) (tn3 s) (tn4 s) (bn1 s) (paste m2 (rst (bn2 s))) (paste m3 (rst (bn3 s))) (paste m4 (rst (bn4 s)))
      (st s) (st2 s) (action s) (reward s) (terminal s).

  (** drl.c:335-352 for one element: the derivatives of the policy *)
  Definition policy_phase (m2o m3o : nat) (s : slot) : option slot :=
    let b1 := ff (bn1 s) (st s) in
    let b2 := ff (bn2 s) (st s) in
    let b3 := ff (bn3 s) (out b1) in
    x ← cat m2o m3o (out b2) (out b3);
    let b4 := ff (bn4 s) x in
    r4 ← bp b4 x [(-1)%R];
    e3 ← slice m2o m3o (snd (A := net) (B := vec) r4);
    r3 ← bp b3 (out b1) e3;
    r1 ← bp b1 (st s) (snd (A := net) (B := vec) r3);
    Some (mkSlot (tn1 s) (tn2 s) (tn3 s) (tn4 s) (fst (A := net) (B := vec) r1) b2 (fst (A := net) (B := vec) r3) (fst (A := net) (B := vec) r4)
      (st s) (st2 s) (action s) (reward s) (terminal s)).

  (** drl.c:358-368 for one element *)
  Definition finish (tau : R) (m1 m2 m3 m4 : net) (s : slot) : slot :=
    mkSlot (slow_paste tau m1 (tn1 s)) (slow_paste tau m2 (tn2 s)) (slow_paste tau m3 (tn3 s)) (slow_paste tau m4 (tn4 s))
      (paste m1 (rst (bn1 s))) (rst (bn2 s)) (rst (bn3 s)) (rst (bn4 s)) (st s) (st2 s) (action s) (reward s) (terminal s).

  (** t1 is an unsigned 64 bit number *)
  Definition dec64 (t : Z) : Z := ((t - 1) mod 18446744073709551616)%Z.

  (** drl.c:262-375 ddpg_train; the threads and the deallocations are left out; update_model gets the hyper parameters
      [hyper1] = (lr1, momentum1, gradient_descent_flag1, regularization1, n_weights1, lambda1) and [hyper2] likewise *)
  Definition ddpg_train (d : ddpg) : option ddpg :=
    l1 ← mapM (critic_phase (m2_output d) (m3_output d) (gamma d)) (slots d);
    let m2 := sum_grads (nm2 d) (bn2 <$> l1) in
    let m3 := sum_grads (nm3 d) (bn3 <$> l1) in
    let m4 := sum_grads (nm4 d) (bn4 <$> l1) in
    let m4 := update (hyper1 d) (t1 d) m4 in
    let t1' := dec64 (t1 d) in
    let m3 := update (hyper1 d) t1' m3 in
    let t1' := dec64 t1' in
    let m2 := update (hyper1 d) t1' m2 in
    let m2 := rst m2 in
    let m3 := rst m3 in
    let m4 := rst m4 in
    let l2 := sync_critic m2 m3 m4 <$> l1 in
    l3 ← mapM (policy_phase (m2_output d) (m3_output d)) l2;
    let m1 := sum_grads (nm1 d) (bn1 <$> l3) in
    let m1 := update (hyper2 d) (t2 d) m1 in
    let m1 := rst m1 in
    Some (mkDdpg m1 m2 m3 m4 (finish (tau d) m1 m2 m3 m4 <$> l3) (m2_output d) (m3_output d) (gamma d) (tau d) (hyper1 d) (hyper2 d) t1' (t2 d)).

  (** drl.c:69-208 init_ddpg (the checks of the arguments are left out): the copies for the batch (bm is filled with copies of m, tm too); data are
      what the user puts in the buffers *)
  Definition init_slot (m1 m2 m3 m4 : net) (data : vec * vec * vec * R * Z) : slot :=
    let '(s, s2, a, r, t) := data in mkSlot m1 m2 m3 m4 m1 m2 m3 m4 s s2 a r t.
  Definition init_ddpg (m1 m2 m3 m4 : net) (data : list (vec * vec * vec * R * Z)) (m2o m3o : nat) (gamma tau : R) (h1 h2 : H) : ddpg :=
    mkDdpg m1 m2 m3 m4 (init_slot m1 m2 m3 m4 <$> data) m2o m3o gamma tau h1 h2 1 1.
End model.
