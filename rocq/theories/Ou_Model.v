(** Model of noise.c, the Ornstein-Uhlenbeck exploration noise, over a record of arithmetic operations (reals or binary32) *)
From Coq Require Import Reals Lra.
From Verif Require Export Base Duel_Model.
Open Scope nat_scope.

(** llab.h:674-682 struct oustrategy *)
Record ou (F : Type) := Ou {
  ou_dim : nat; ou_mu : F; ou_theta : F; ou_sigma : F; ou_max_sigma : F; ou_min_sigma : F;
  ou_max : list F; ou_min : list F; ou_decay : N; ou_state : list F; ou_space : list F }.
Arguments Ou {F}. Arguments ou_dim {F}. Arguments ou_mu {F}. Arguments ou_theta {F}. Arguments ou_sigma {F}. Arguments ou_max_sigma {F}.
Arguments ou_min_sigma {F}. Arguments ou_max {F}. Arguments ou_min {F}. Arguments ou_decay {F}. Arguments ou_state {F}. Arguments ou_space {F}.
Definition with_state {F} (o : ou F) (st : list F) : ou F :=
  Ou (ou_dim o) (ou_mu o) (ou_theta o) (ou_sigma o) (ou_max_sigma o) (ou_min_sigma o) (ou_max o) (ou_min o) (ou_decay o) st (ou_space o).
Definition with_sigma {F} (o : ou F) (s : F) : ou F :=
  Ou (ou_dim o) (ou_mu o) (ou_theta o) s (ou_max_sigma o) (ou_min_sigma o) (ou_max o) (ou_min o) (ou_decay o) (ou_state o) (ou_space o).
Definition with_space {F} (o : ou F) (sp : list F) : ou F :=
  Ou (ou_dim o) (ou_mu o) (ou_theta o) (ou_sigma o) (ou_max_sigma o) (ou_min_sigma o) (ou_max o) (ou_min o) (ou_decay o) (ou_state o) sp.

(** noise.c:27-42 init_oustrategy; theta, sigma are the constants 0.15, 0.3 *)
Definition init_ou {F} (O : arith F) (theta sigma : F) (dim : nat) (amax amin : list F) : ou F :=
  Ou dim (o_nat O 0) theta sigma sigma sigma amax amin 100000 (replicate dim (o_nat O 0)) (replicate dim (o_nat O 0)).
(** noise.c:52-58 reset_oustrategy *)
Definition reset_ou {F} (o : ou F) : option (ou F) :=
  sp ← for_loop (ou_dim o) 0 (fun i sp => wr sp i (ou_mu o)) (ou_space o); Some (with_space o sp).
(** noise.c:60-70 evolve_state; [xi i] is the value of random_normal() in iteration i *)
Definition evolve_state {F} (O : arith F) (xi : nat -> F) (o : ou F) : option (ou F) :=
  st ← for_loop (ou_dim o) 0 (fun i st =>
         s ← rd st i; wr st i (o_add O s (o_add O (o_mul O (ou_theta o) (o_sub O (ou_mu o) s)) (o_mul O (ou_sigma o) (xi i))))) (ou_state o);
  Some (with_state o st).
(** noise.c:84-87 the two tests on one action *)
Definition clamp {F} (O : arith F) (hi lo x : F) : F :=
  let x := if o_lt O hi x then hi else x in if o_lt O x lo then lo else x.
(** noise.c:77-81 the new sigma.  t/ou->decay_period is a quotient of integers; by 0 it is undefined *)
Definition next_sigma {F} (O : arith F) (t : N) (o : ou F) : option F :=
  if decide (ou_decay o = 0%N) then None else
  let q := (t / ou_decay o)%N in
  let m := if (1 <? q)%N then o_nat O 1 else o_nat O (N.to_nat q) in
  Some (o_sub O (ou_max_sigma o) (o_mul O (o_sub O (ou_max_sigma o) (ou_min_sigma o)) m)).
(** noise.c:72-90 get_action *)
Definition get_action {F} (O : arith F) (xi : nat -> F) (t : N) (o : ou F) (actions : list F) : option (ou F * list F) :=
  o ← evolve_state O xi o;
  sg ← next_sigma O t o;
  let o := with_sigma o sg in
  actions ← for_loop (ou_dim o) 0 (fun i a =>
    x ← rd a i; s ← rd (ou_state o) i; hi ← rd (ou_max o) i; lo ← rd (ou_min o) i;
    wr a i (clamp O hi lo (o_add O x s))) actions;
  Some (o, actions).

(** initialization.c:52-60 drand, random_normal, over exact reals; M is RAND_MAX, the arguments are the values of rand() *)
Definition drand (M r : Z) : R := ((IZR r + 1) / (IZR M + 1))%R.
Definition random_normal (M r1 r2 : Z) : R := (R_sqrt.sqrt (-2 * ln (drand M r1)) * cos (2 * PI * drand M r2))%R.
