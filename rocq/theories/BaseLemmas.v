(** Facts about checked arrays and loops (no model content). *)
From Verif Require Export Base.

Lemma rd_Some {A} (l : list A) i : i < length l -> exists x, rd l i = Some x.
Proof. intros H. unfold rd. destruct (lookup_lt_is_Some_2 l i H) as [x Hx]. eauto. Qed.

Lemma wr_Some {A} (l : list A) i v : i < length l -> wr l i v = Some (<[i:=v]> l).
Proof. intros H. unfold wr. rewrite decide_True by done. reflexivity. Qed.

Lemma wr_inv {A} (l l' : list A) i v : wr l i v = Some l' -> i < length l /\ l' = <[i:=v]> l.
Proof. unfold wr. case_decide; intros; simplify_eq; auto. Qed.

(** Loop rule: an invariant indexed by the counter. *)
Lemma for_loop_inv {S} (P : nat -> S -> Prop) (body : nat -> S -> option S) cnt i0 s :
  P i0 s ->
  (forall i s, i0 <= i < i0 + cnt -> P i s -> exists s', body i s = Some s' /\ P (Datatypes.S i) s') ->
  exists s', for_loop cnt i0 body s = Some s' /\ P (i0 + cnt) s'.
Proof.
  revert i0 s. induction cnt as [|c IH]; intros i0 s H0 Hstep; cbn [for_loop].
  - exists s. split; [done|]. by rewrite Nat.add_0_r.
  - destruct (Hstep i0 s) as (s' & Hb & Hp); [lia|done|].
    rewrite Hb. cbn [mbind option_bind].
    destruct (IH (Datatypes.S i0) s' Hp) as (s'' & Hl & Hp').
    { intros i t Hi. apply Hstep. lia. }
    exists s''. split; [done|]. by replace (i0 + Datatypes.S c) with (Datatypes.S i0 + c) by lia.
Qed.

Lemma for_loop_ext {S} (b1 b2 : nat -> S -> option S) cnt i0 s :
  (forall i s, i0 <= i < i0 + cnt -> b1 i s = b2 i s) ->
  for_loop cnt i0 b1 s = for_loop cnt i0 b2 s.
Proof.
  revert i0 s. induction cnt as [|c IH]; intros i0 s H; cbn [for_loop]; [done|].
  rewrite H by lia. destruct (b2 i0 s); cbn [mbind option_bind]; [|done].
  apply IH. intros. apply H. lia.
Qed.

Lemma for_loop_app {S} (body : nat -> S -> option S) c1 c2 i0 s :
  for_loop (c1 + c2) i0 body s = (s' ← for_loop c1 i0 body s; for_loop c2 (i0 + c1) body s').
Proof.
  revert i0 s. induction c1 as [|c IH]; intros i0 s; cbn [for_loop plus].
  - cbn [mbind option_bind]. by rewrite Nat.add_0_r.
  - destruct (body i0 s); cbn [mbind option_bind]; [|done].
    rewrite IH. by replace (Datatypes.S i0 + c) with (i0 + Datatypes.S c) by lia.
Qed.

Lemma for_loop_S_r {S} (body : nat -> S -> option S) c i0 s :
  for_loop (Datatypes.S c) i0 body s = (s' ← for_loop c i0 body s; body (i0 + c) s').
Proof.
  replace (Datatypes.S c) with (c + 1) by lia. rewrite for_loop_app.
  destruct (for_loop c i0 body s) as [t|]; cbn [mbind option_bind for_loop]; [|done].
  destruct (body (i0 + c) t); reflexivity.
Qed.
