(** Vocabulary of the dispatch theorems *)
From Coq Require Import Reals.
From Verif Require Import Base Disp_Model.
Open Scope nat_scope.

Section spec.
Context {L V : Type} `{EqDecision L}.
(** a thread run alone from memory h: its result and the memory it leaves *)
Fixpoint exec (c : code L V) (h : mem L V) : V * mem L V :=
  match c with Ret v => (v, h) | Get l f => exec (f (h l)) h | Set_ l v c => exec c (upd h l v) end.
(** pieces of work run one after the other *)
Fixpoint one_by_one (cs : list (code L V)) (h : mem L V) : mem L V :=
  match cs with [] => h | c :: cs => one_by_one cs (exec c h).2 end.

(** c writes only cells of `own` and reads no cell of `others` *)
Fixpoint uses (own others : L -> Prop) (c : code L V) : Prop :=
  match c with Ret _ => True | Get l f => ~ others l /\ forall v, uses own others (f v) | Set_ l _ c => own l /\ uses own others c end.
(** the cells W k belong to one k only; work k writes only its own cells and reads no cell of the others (all may read the rest) *)
Definition independent_in (W : nat -> L -> bool) (cs : list (code L V)) : Prop :=
  (forall i j l, i < length cs -> j < length cs -> i <> j -> W i l = true -> W j l = true -> False) /\
  forall k c, cs !! k = Some c -> uses (fun l => W k l = true) (fun l => exists j, j < length cs /\ j <> k /\ W j l = true) c.
Definition independent (cs : list (code L V)) : Prop := exists W, independent_in W cs.

(** the next access of a running thread: cell, is it a write? *)
Definition access (c : code L V) : option (L * bool) := match c with Ret _ => None | Get l _ => Some (l, false) | Set_ l _ _ => Some (l, true) end.
(** two threads are about to access the same cell, one of them writing *)
Definition race (s : state L V) : Prop :=
  exists j1 j2 k1 k2 c1 c2 l b1 b2, j1 <> j2 /\ pool s !! j1 = Some (Some (k1, c1)) /\ pool s !! j2 = Some (Some (k2, c2)) /\
    access c1 = Some (l, b1) /\ access c2 = Some (l, b2) /\ b1 || b2 = true.
(** nothing left to do, no thread running *)
Definition finished (s : state L V) : Prop := todo s = [] /\ Forall (fun x => x = None) (pool s).
(** every execution from s is finite, race free and never blocked, and ends with memory h' and sum t' *)
Definition always_finishes (add : V -> V -> V) (s : state L V) (h' : mem L V) (t' : V) : Prop :=
  Acc (fun x y => step add y x) s /\
  forall s1, rtc (step add) s s1 -> ~ race s1 /\ ((finished s1 /\ (forall l, memory s1 l = h' l) /\ total s1 = t') \/ exists s2, step add s1 s2).
End spec.
(** the sum of the thread results is not kept *)
Definition unused {V} (s _ : V) : V := s.
(** the entries with a nonzero index *)
Definition picked {A} (indices : list Z) (l : list A) : list A := omap (fun '(b, x) => if decide (b <> 0%Z) then Some x else None) (zip indices l).
(** lists of the same length *)
Definition zip3 {A B C D} (f : A -> B -> C -> D) (a : list A) (b : list B) (c : list C) : list D := zip_with (fun f c => f c) (zip_with f a b) c.
(** the optional array of places for the returned errors: one per instance *)
Definition places {P} (ps : option (list P)) (n : nat) : list (option P) := match ps with None => replicate n None | Some l => map Some l end.
(** The evaluation of instances on copies of a network: copy j owns the cells W j; evaluating an instance on a clean copy gives its loss
    and leaves the copy clean, whatever the other copies are doing, as long as the memory owned by nobody is that of h0 *)
Record evaluates {L M I O} `{EqDecision L} (job : M -> I -> O -> code L R) (ms : list M) (W : nat -> L -> bool) (clean : nat -> mem L R -> Prop) (loss : I -> O -> R) (h0 : mem L R) : Prop := {
  ev_own : forall i j l, i < length ms -> j < length ms -> i <> j -> W i l = true -> W j l = true -> False;
  ev_uses : forall j m x y, ms !! j = Some m -> uses (fun l => W j l = true) (fun l => exists i, i < length ms /\ i <> j /\ W i l = true) (job m x y);
  ev_local : forall j h h', (forall l, W j l = true -> h l = h' l) -> clean j h -> clean j h';
  ev_loss : forall j m x y h, ms !! j = Some m -> clean j h -> (forall l, (forall i, i < length ms -> W i l = false) -> h l = h0 l) ->
              (exec (job m x y) h).1 = loss x y /\ clean j (exec (job m x y) h).2;
  ev_clean : forall j, j < length ms -> clean j h0 }.
