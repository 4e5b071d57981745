From Verif Require Export Order.
Section order.
  Context {V : Type} (ltb : V -> V -> bool) (Hs : strict_weak_order ltb).
  Local Notation "x ≤v y" := (leP ltb x y) (at level 70).
  Lemma leP_refl x : x ≤v x. Proof. apply Hs. Qed.
  Lemma leP_trans x y z : x ≤v y -> y ≤v z -> x ≤v z.
  Proof. unfold leP. destruct Hs as (_ & _ & H). eauto. Qed.
  Lemma ltb_leP x y : ltb x y = true -> x ≤v y.
  Proof. unfold leP. destruct Hs as (Hi & Ht & _). intros H. destruct (ltb y x) eqn:E; [|done].
    pose proof (Ht _ _ _ H E). rewrite Hi in *. done. Qed.
  Lemma leP_total x y : x ≤v y \/ y ≤v x.
  Proof. unfold leP. destruct (ltb y x) eqn:E; [right; apply (ltb_leP _ _ E)|left; done]. Qed.
  Lemma not_ltb x y : ltb x y = false <-> y ≤v x. Proof. done. Qed.
  Lemma lt_le_trans x y z : ltb x y = true -> y ≤v z -> ltb x z = true.
  Proof. destruct Hs as (Hi & Ht & Hn). unfold leP. intros H1 H2. destruct (ltb x z) eqn:E; [done|].
    rewrite (Hn _ _ _ E H2) in H1. done. Qed.
  Lemma le_lt_trans x y z : x ≤v y -> ltb y z = true -> ltb x z = true.
  Proof. destruct Hs as (Hi & Ht & Hn). unfold leP. intros H1 H2. destruct (ltb x z) eqn:E; [done|].
    rewrite (Hn _ _ _ H1 E) in H2. done. Qed.
End order.
Lemma Zltb_swo : strict_weak_order Z.ltb.
Proof. split_and!; intros; lia. Qed.
