(** Shared vocabulary of the numeric kernels: float arrays as lists of exact reals, and loop facts. *)
From Verif Require Export RealSum.
Open Scope nat_scope.

(** entry i of an array (0 outside; only used for indices inside) *)
Definition el (l : list R) (i : nat) : R := nth i l 0%R.

(** [a[i] += v] *)
Definition addat (l : list R) (i : nat) (v : R) : option (list R) := x ← rd l i; wr l i (x + v)%R.

(** scalar accumulation [for(i=0;i<n;i++) s += f(i)] where evaluating f(i) may be undefined *)
Definition sum_loop (n : nat) (f : nat -> option R) (s : R) : option R :=
  for_loop n 0 (fun i s => x ← f i; Some (s + x)%R) s.

Lemma el_lookup l i x : l !! i = Some x -> el l i = x.
Proof. intros H. unfold el. by erewrite nth_lookup_Some. Qed.
Lemma lookup_el l i : i < length l -> l !! i = Some (el l i).
Proof. intros H. destruct (lookup_lt_is_Some_2 l i H) as [x Hx]. by rewrite Hx, (el_lookup _ _ _ Hx). Qed.
Lemma rd_el l i : i < length l -> rd l i = Some (el l i).
Proof. apply lookup_el. Qed.
Lemma el_ge l i : length l <= i -> el l i = 0%R.
Proof. apply nth_overflow. Qed.
Lemma el_replicate n i : el (replicate n 0%R) i = 0%R.
Proof. unfold el. (destruct (decide (i < n)); [erewrite nth_lookup_Some; [done|]; by apply lookup_replicate_2|apply nth_overflow; rewrite replicate_length; lia]). Qed.

Lemma for_loop_sum n f g s : (forall i, i < n -> f i = Some (g i)) -> sum_loop n f s = Some (s + sumn n g)%R.
Proof.
  intros H. unfold sum_loop.
  destruct (for_loop_inv (fun i a => a = (s + sumn i g)%R) (fun i a => x ← f i; Some (a + x)%R) n 0 s) as (a & E & Ha).
  - cbn. lra.
  - intros i a Hi ->. rewrite H by lia. cbn [mbind option_bind]. eexists. split; [done|]. cbn [sumn]. lra.
  - rewrite E. f_equal. exact Ha.
Qed.

(** Pointwise array transformers. *)
Definition Pointwise {A} (n : nat) (f : list A -> option (list A)) (h : nat -> A -> A) : Prop :=
  forall l, length l = n -> f l = Some (imap h l).

Lemma imap_length' {A B} (h : nat -> A -> B) l : length (imap h l) = length l.
Proof. apply imap_length. Qed.
Lemma imap_ext_lt {A B} (h1 h2 : nat -> A -> B) l : (forall k x, k < length l -> l !! k = Some x -> h1 k x = h2 k x) -> imap h1 l = imap h2 l.
Proof.
  intros H. apply list_eq. intros k. rewrite !list_lookup_imap. destruct (l !! k) as [x|] eqn:E; [|done]. cbn. f_equal. apply H; [by eapply lookup_lt_Some|done].
Qed.
Lemma imap_imap {A B C} (h1 : nat -> A -> B) (h2 : nat -> B -> C) l : imap h2 (imap h1 l) = imap (fun k x => h2 k (h1 k x)) l.
Proof. apply list_eq. intros k. rewrite !list_lookup_imap. by destruct (l !! k). Qed.
Lemma imap_id {A} (l : list A) : imap (fun _ x => x) l = l.
Proof. apply list_eq. intros k. rewrite !list_lookup_imap. by destruct (l !! k). Qed.

Lemma Pointwise_ext {A} n (f : list A -> option (list A)) h h' : Pointwise n f h -> (forall k x, k < n -> h k x = h' k x) -> Pointwise n f h'.
Proof. intros H E l Hl. rewrite (H l Hl). f_equal. apply imap_ext_lt. intros. apply E. by rewrite <- Hl. Qed.
Lemma Pointwise_id {A} n : Pointwise (A := A) n Some (fun _ x => x).
Proof. intros l _. by rewrite imap_id. Qed.
Lemma Pointwise_wr n i (v : R) : i < n -> Pointwise n (fun l => wr l i v) (fun k x => if decide (k = i) then v else x).
Proof.
  intros Hi l Hl. rewrite wr_Some by lia. f_equal. apply list_eq. intros k. rewrite list_lookup_imap.
  destruct (decide (k = i)) as [->|].
  - rewrite list_lookup_insert by lia. rewrite lookup_el by lia. cbn. done.
  - rewrite list_lookup_insert_ne by done. by destruct (l !! k).
Qed.
Lemma Pointwise_addat n i v : i < n -> Pointwise n (fun l => addat l i v) (fun k x => if decide (k = i) then x + v else x)%R.
Proof.
  intros Hi l Hl. unfold addat. rewrite rd_el by lia. cbn [mbind option_bind]. rewrite wr_Some by lia. f_equal.
  apply list_eq. intros k. rewrite list_lookup_imap. destruct (decide (k = i)) as [->|].
  - rewrite list_lookup_insert by lia. rewrite lookup_el by lia. cbn. done.
  - rewrite list_lookup_insert_ne by done. by destruct (l !! k).
Qed.
Lemma Pointwise_seq {A} n (f1 f2 : list A -> option (list A)) h1 h2 : Pointwise n f1 h1 -> Pointwise n f2 h2 ->
  Pointwise n (fun l => l1 ← f1 l; f2 l1) (fun k x => h2 k (h1 k x)).
Proof. intros H1 H2 l Hl. rewrite (H1 l Hl). cbn [mbind option_bind]. rewrite H2 by by rewrite imap_length. by rewrite imap_imap. Qed.

(** Accumulating transformers: entry k grows by D k. *)
Definition Adds (n : nat) (f : list R -> option (list R)) (D : nat -> R) : Prop := Pointwise n f (fun k x => x + D k)%R.

Lemma Adds_ext n f D D' : Adds n f D -> (forall k, k < n -> D k = D' k) -> Adds n f D'.
Proof. intros H E. eapply Pointwise_ext; [exact H|]. intros k x Hk. cbn. by rewrite E. Qed.
Lemma Adds_id n : Adds n Some (fun _ => 0%R).
Proof. eapply Pointwise_ext; [apply Pointwise_id|]. intros. cbn. lra. Qed.
Lemma Adds_at n i v : i < n -> Adds n (fun l => addat l i v) (fun k => if decide (k = i) then v else 0%R).
Proof. intros Hi. eapply Pointwise_ext; [by apply Pointwise_addat|]. intros k x Hk. cbn. destruct (decide (k = i)); lra. Qed.
Lemma Adds_seq n f1 f2 D1 D2 : Adds n f1 D1 -> Adds n f2 D2 -> Adds n (fun l => l1 ← f1 l; f2 l1) (fun k => D1 k + D2 k)%R.
Proof. intros H1 H2. eapply Pointwise_ext; [by eapply Pointwise_seq|]. intros k x Hk. cbn. lra. Qed.
Lemma Adds_loop_from n cnt i0 body D : (forall i, i0 <= i < i0 + cnt -> Adds n (body i) (D i)) ->
  Adds n (for_loop cnt i0 body) (fun k => sumn cnt (fun i => D (i0 + i)%nat k)).
Proof.
  revert i0. induction cnt as [|cnt IH]; intros i0 H.
  - eapply Adds_ext; [apply Adds_id|]. done.
  - intros l Hl. cbn [for_loop]. rewrite (H i0 ltac:(lia) l Hl). cbn [mbind option_bind].
    rewrite (IH (S i0)); [|intros; apply H; lia|by rewrite imap_length]. rewrite imap_imap. f_equal. apply imap_ext_lt. intros k x Hk _.
    rewrite sumn_S_l. rewrite Nat.add_0_r. rewrite Rplus_assoc. do 2 f_equal. apply sumn_ext. intros j Hj. by replace (S i0 + j)%nat with (i0 + S j)%nat by lia.
Qed.
Lemma Adds_loop n cnt body D : (forall i, i < cnt -> Adds n (body i) (D i)) ->
  Adds n (for_loop cnt 0 body) (fun k => sumn cnt (fun i => D i k)).
Proof. intros H. apply (Adds_loop_from n cnt 0 body D). intros i Hi. apply H. lia. Qed.
Lemma Adds_body n f f' D : (forall l, length l = n -> f l = f' l) -> Adds n f' D -> Adds n f D.
Proof. intros E H l Hl. rewrite E by done. by apply H. Qed.

(** Overwriting loop: iteration i transforms entry b+i only. *)
Lemma Pointwise_loop n cnt b body (g : nat -> R -> R) :
  b + cnt <= n ->
  (forall i, i < cnt -> Pointwise n (body i) (fun k x => if decide (k = b + i) then g i x else x)) ->
  Pointwise n (for_loop cnt 0 body) (fun k x => if decide (b <= k < b + cnt) then g (k - b) x else x).
Proof.
  intros Hb H. assert (Hgen : forall c i0, i0 + c <= cnt ->
    Pointwise n (for_loop c i0 body) (fun k x => if decide (b + i0 <= k < b + i0 + c) then g (k - b) x else x)).
  { induction c as [|c IH]; intros i0 Hc l Hl; cbn [for_loop].
    - f_equal. symmetry. etransitivity; [|apply imap_id]. apply imap_ext_lt. intros k x Hk _. rewrite decide_False by lia. done.
    - rewrite (H i0 ltac:(lia) l Hl). cbn [mbind option_bind]. rewrite (IH (S i0)) by (lia || by rewrite imap_length).
      rewrite imap_imap. f_equal. apply imap_ext_lt. intros k x Hk _.
      destruct (decide (k = b + i0)) as [->|Hne].
      + rewrite decide_False by lia. rewrite decide_True by lia. f_equal. lia.
      + destruct (decide (b + S i0 <= k < b + S i0 + c)), (decide (b + i0 <= k < b + i0 + S c)); done || lia. }
  eapply Pointwise_ext; [apply (Hgen cnt 0); lia|]. intros k x Hk. cbn beta. rewrite Nat.add_0_r. done.
Qed.

(** Fission: a loop over two independent arrays is two loops. *)
Lemma for_loop_pair {A B} (fa : nat -> A -> option A) (fb : nat -> B -> option B) (body : nat -> A * B -> option (A * B)) cnt i0 a b :
  (forall i a b, i0 <= i < i0 + cnt -> body i (a, b) = (a' ← fa i a; b' ← fb i b; Some (a', b'))) ->
  for_loop cnt i0 body (a, b) = (a' ← for_loop cnt i0 fa a; b' ← for_loop cnt i0 fb b; Some (a', b')).
Proof.
  revert i0 a b. induction cnt as [|cnt IH]; intros i0 a b H; cbn [for_loop]; [done|].
  rewrite H by lia. destruct (fa i0 a) as [a'|]; cbn [mbind option_bind]; [|done].
  destruct (fb i0 b) as [b'|]; cbn [mbind option_bind].
  - apply IH. intros. apply H. lia.
  - destruct (for_loop cnt (S i0) fa a'); done.
Qed.

Lemma el_imap (h : nat -> R -> R) l k : k < length l -> el (imap h l) k = h k (el l k).
Proof. intros H. apply el_lookup. rewrite list_lookup_imap, lookup_el by done. done. Qed.
Lemma el_map_seq (f : nat -> R) n k : k < n -> el (map f (seq 0 n)) k = f k.
Proof. intros H. unfold el. rewrite (nth_indep _ 0%R (f 0)) by (by rewrite map_length, seq_length). rewrite map_nth, seq_nth by done. done. Qed.
