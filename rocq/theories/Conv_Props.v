(** C26 convolution, C27 transposed convolution. *)
From Verif Require Import NumLib NumLib3 Grad Conv_Model Conv_Spec Conv_Proofs TConv_Proofs.
Open Scope nat_scope.

(** For every shape the forward pass succeeds (no out-of-bounds access), adds correlation + bias to each un-padded
    cell and leaves the padding border alone. *)
Theorem C26_forward : forall ii ij ki kj ch s1 s2 p K bias x out, conv_shape ii ij ki kj ch s1 s2 p K x ->
  let H := positions ii ki s1 in let W := positions ij kj s2 in
  length out = (H + 2 * p) * (W + 2 * p) ->
  exists out', convolutional_feed_forward x K ii ij ki kj bias ch out s1 s2 p = Some out' /\ length out' = length out /\
    (forall r s, r < H -> s < W -> let q := (p + r) * (W + 2 * p) + (p + s) in
       el out' q = (el out q + (corr ii ij ki kj ch s1 s2 K x r s + bias))%R) /\
    (forall r s, r < H + 2 * p -> s < W + 2 * p -> ~ (p <= r < p + H /\ p <= s < p + W) ->
       el out' (r * (W + 2 * p) + s) = el out (r * (W + 2 * p) + s)).
Proof.
  intros ii ij ki kj ch s1 s2 p K bias x out Hs H W Ho.
  eexists. split; [exact (conv_ff_adds ii ij ki kj ch s1 s2 p K x Hs bias out Ho)|]. rewrite imap_length. split; [done|]. fold H W. split.
  - intros r s Hr Hs' q. assert (Hq : q < length out) by (unfold q; rewrite Ho; apply flat_lt; lia). rewrite el_imap by done. f_equal.
    rewrite (sum2_single H W r s) by first [done|intros i j Hi Hj Hne; rewrite decide_False; [done|]; intros E; apply flat_inj in E; lia].
    by rewrite decide_True.
  - intros r s Hr Hs' Hn. assert (Hq : r * (W + 2 * p) + s < length out) by (rewrite Ho; apply flat_lt; lia). rewrite el_imap by done.
    rewrite sum2_0; [lra|]. intros i j Hi Hj. rewrite decide_False; [done|]. intros E. apply flat_inj in E; lia.
Qed.

Lemma conv_bp_none ii ij ki kj ch s1 s2 p K x oe ke ie : conv_shape ii ij ki kj ch s1 s2 p K x ->
  let PI := positions ii ki s1 in let PJ := positions ij kj s2 in let J := PJ + 2 * p in
  length oe = (PI + 2 * p) * J -> length ke = ch * ki * kj -> length ie = ch * ii * ij ->
  let D := fun k => sum2 PI PJ (fun r s => sum3 ch ki kj (fun c i j => if decide (k = (c * ki + i) * kj + j) then (el oe ((p + r) * J + (p + s)) * at3 ii ij x c (r * s1 + i) (s * s2 + j))%R else 0%R)) in
  let E := fun k => sum2 PI PJ (fun r s => sum3 ch ki kj (fun c i j => if decide (k = (c * ii + (r * s1 + i)) * ij + (s * s2 + j)) then (at3 ki kj K c i j * el oe ((p + r) * J + (p + s)))%R else 0%R)) in
  convolutional_back_prop x K ii ij ki kj ch oe (ke, ie, None) s1 s2 p = Some (imap (fun k v => v + D k)%R ke, imap (fun k v => v + E k)%R ie, None) /\
  forall be, convolutional_back_prop x K ii ij ki kj ch oe (ke, ie, Some be) s1 s2 p =
    Some (imap (fun k v => v + D k)%R ke, imap (fun k v => v + E k)%R ie, Some (be + sum2 PI PJ (fun r s => el oe ((p + r) * J + (p + s))))%R).
Proof.
  intros Hs PI PJ J Ho Hk Hi D E. destruct (dims _ _ _ _ _ _ _ p _ _ Hs) as (D1 & D2 & D3 & D4 & D5).
  assert (HA : Adds2 (ch * ki * kj) (ch * ii * ij) (for_loop PI p (fun oi => for_loop PJ p (fun oj p0 => conv_bp_cell x K oe ii ij ki kj ch J s1 s2 p oi oj p0))) D E).
  { apply (Adds2_loop2 _ _ PI PJ p p). intros r s Hr Hs'. by apply conv_cell_adds. }
  split.
  - unfold convolutional_back_prop. rewrite D1, D2, D3. cbn zeta. rewrite D4, D5. cbn [snd fst]. fold PI PJ J. rewrite (HA ke ie Hk Hi). done.
  - intros be. unfold convolutional_back_prop. rewrite D1, D2, D3. cbn zeta. rewrite D4, D5. cbn [snd fst]. fold PI PJ J.
    rewrite (for_loop_pair (fun oi => for_loop PJ p (fun oj p0 => conv_bp_cell x K oe ii ij ki kj ch J s1 s2 p oi oj p0)) (fun oi => for_loop PJ p (fun oj b => e ← rd oe (oi * J + oj); Some (b + e)%R))).
    2:{ intros oi a b Hoi. apply for_loop_pair. intros oj a' b' Hoj. cbn [fst snd]. destruct (conv_bp_cell _ _ _ _ _ _ _ _ _ _ _ _ _ _ _); [|done]. cbn [mbind option_bind]. by destruct (rd oe (oi * J + oj)). }
    rewrite (HA ke ie Hk Hi). cbn [mbind option_bind].
    destruct (for_loop_inv (fun oi b => b = (be + sumn (oi - p) (fun r => sumn PJ (fun s => el oe ((p + r) * J + (p + s)))))%R)
      (fun oi => for_loop PJ p (fun oj b => e ← rd oe (oi * J + oj); Some (b + e)%R)) PI p be) as (b & Eb & Hb).
    + rewrite Nat.sub_diag. cbn. lra.
    + intros oi b Hoi ->.
      destruct (for_loop_inv (fun oj b => b = (be + sumn (oi - p) (fun r => sumn PJ (fun s => el oe ((p + r) * J + (p + s)))) + sumn (oj - p) (fun s => el oe (oi * J + (p + s))))%R)
        (fun oj b => e ← rd oe (oi * J + oj); Some (b + e)%R) PJ p (be + sumn (oi - p) (fun r => sumn PJ (fun s => el oe ((p + r) * J + (p + s)))))%R) as (b & Eb & Hb).
      * rewrite Nat.sub_diag. cbn [sumn]. lra.
      * intros oj b Hoj ->. rewrite rd_el by (rewrite Ho; apply flat_lt; unfold J; lia). cbn [mbind option_bind]. eexists. split; [done|].
        replace (S oj - p) with (S (oj - p)) by lia. cbn [sumn]. replace (p + (oj - p)) with oj by lia. lra.
      * eexists. split; [exact Eb|]. rewrite Hb. replace (S oi - p) with (S (oi - p)) by lia. cbn [sumn]. replace (p + (oi - p)) with oi by lia. replace (p + PJ - p) with PJ by lia. lra.
    + rewrite Eb. cbn [mbind option_bind fst snd]. rewrite Hb. replace (p + PI - p) with PI by lia. done.
Qed.

(** Backward: kernel, input and bias errors grow by the exact gradient of <output error, feature map>. *)
Theorem C26_backward : forall ii ij ki kj ch s1 s2 p K b x oe ke ie be, conv_shape ii ij ki kj ch s1 s2 p K x ->
  let n := (positions ii ki s1 + 2 * p) * (positions ij kj s2 + 2 * p) in
  length oe = n -> length ke = length K -> length ie = length x ->
  exists ke' ie' be', convolutional_back_prop x K ii ij ki kj ch oe (ke, ie, Some be) s1 s2 p = Some (ke', ie', Some be') /\
    grad_added (fun K => inner n oe (conv_map ii ij ki kj ch s1 s2 p K b x)) K ke ke' /\
    grad_added (fun x => inner n oe (conv_map ii ij ki kj ch s1 s2 p K b x)) x ie ie' /\
    (exists d, be' = (be + d)%R /\ derivable_pt_lim (fun b => inner n oe (conv_map ii ij ki kj ch s1 s2 p K b x)) b d).
Proof.
  intros ii ij ki kj ch s1 s2 p K b x oe ke ie be Hs n Ho Hk Hi. pose proof Hs as (_ & _ & _ & _ & HK & HX).
  destruct (conv_bp_none ii ij ki kj ch s1 s2 p K x oe ke ie Hs Ho ltac:(congruence) ltac:(congruence)) as [_ ->].
  eexists _, _, _. split; [done|]. unfold grad_added. rewrite !imap_length. split; [|split]; [split; [done|]..|].
  - intros k Hlt. eexists. split; [by rewrite el_imap|]. apply (conv_partial_K _ _ _ _ _ _ _ p K b x oe k Hs). lia.
  - intros k Hlt. eexists. split; [by rewrite el_imap|]. apply (conv_partial_x _ _ _ _ _ _ _ p K b x oe k Hs). lia.
  - eexists. split; [done|]. apply conv_partial_b.
Qed.
Theorem C26_backward_without_bias : forall ii ij ki kj ch s1 s2 p K b x oe ke ie, conv_shape ii ij ki kj ch s1 s2 p K x ->
  let n := (positions ii ki s1 + 2 * p) * (positions ij kj s2 + 2 * p) in
  length oe = n -> length ke = length K -> length ie = length x ->
  exists ke' ie', convolutional_back_prop x K ii ij ki kj ch oe (ke, ie, None) s1 s2 p = Some (ke', ie', None) /\
    grad_added (fun K => inner n oe (conv_map ii ij ki kj ch s1 s2 p K b x)) K ke ke' /\
    grad_added (fun x => inner n oe (conv_map ii ij ki kj ch s1 s2 p K b x)) x ie ie'.
Proof.
  intros ii ij ki kj ch s1 s2 p K b x oe ke ie Hs n Ho Hk Hi. pose proof Hs as (_ & _ & _ & _ & HK & HX).
  destruct (conv_bp_none ii ij ki kj ch s1 s2 p K x oe ke ie Hs Ho ltac:(congruence) ltac:(congruence)) as [-> _].
  eexists _, _. split; [done|]. unfold grad_added. rewrite !imap_length. split; (split; [done|]).
  - intros k Hlt. eexists. split; [by rewrite el_imap|]. apply (conv_partial_K _ _ _ _ _ _ _ p K b x oe k Hs). lia.
  - intros k Hlt. eexists. split; [by rewrite el_imap|]. apply (conv_partial_x _ _ _ _ _ _ _ p K b x oe k Hs). lia.
Qed.
(** a 3x3 input, 2x2 kernel, stride 1, padding 1: a 4x4 output *)
Example C26_example : conv_shape 3 3 2 2 1 1 1 1 [1; 2; 3; 4]%R [1; 2; 3; 4; 5; 6; 7; 8; 9]%R /\ positions 3 2 1 = 2 /\
  corr 3 3 2 2 1 1 1 [1; 2; 3; 4]%R [1; 2; 3; 4; 5; 6; 7; 8; 9]%R 1 1 = 77%R.
Proof. split; [by repeat split; lia|]. split; [done|]. unfold corr, sum3, sum2, at3, el. cbn. lra. Qed.

(** C27 *)
Theorem C27_forward_unpadded : forall ii ij ki kj ch s1 s2 K bias x out, tconv_shape ii ij ki kj ch K x ->
  let H := tdim ii ki s1 in let W := tdim ij kj s2 in length out = H * W ->
  exists out', transposed_convolutional_feed_forward x K ii ij ki kj bias ch out s1 s2 0 = Some out' /\ length out' = length out /\
    forall r s, r < H -> s < W -> el out' (r * W + s) = (el out (r * W + s) + (tfull ii ij ki kj ch s1 s2 K x r s + bias))%R.
Proof.
  intros ii ij ki kj ch s1 s2 K bias x out Hs H W Ho.
  assert (HA : Adds (H * W) (fun out => transposed_convolutional_feed_forward x K ii ij ki kj bias ch out s1 s2 0) (fun q => tfull ii ij ki kj ch s1 s2 K x (q / W) (q mod W) + bias)%R).
  { unfold transposed_convolutional_feed_forward. destruct (tdims ii ij ki kj ch s1 s2 K x Hs) as (-> & -> & ->). cbn zeta. destruct (decide (0 = 0)) as [_|Hn]; [|by destruct Hn]. fold H W.
    eapply Adds_ext; [eapply Adds_seq; [by apply scatter_adds|]|].
    - apply (Adds_loop (H * W) (H * W) _ (fun i k => if decide (k = i) then bias else 0%R)). intros i Hi. by apply Adds_at.
    - intros q Hq. cbn beta. fold W. f_equal. rewrite (sumn_single (H * W) q); [by rewrite decide_True|done|]. intros i _ Hne. by rewrite decide_False by congruence. }
  eexists. split; [exact (HA out Ho)|]. rewrite imap_length. split; [done|]. intros r s Hr Hs'. pose proof (flat_lt H W r s Hr Hs').
  rewrite el_imap by lia. by rewrite flat_div, flat_mod.
Qed.
(** with padding the map is cropped, and the output is overwritten rather than accumulated *)
Theorem C27_forward_padded : forall ii ij ki kj ch s1 s2 p K bias x out, tconv_shape ii ij ki kj ch K x -> p <> 0 ->
  let H := tdim ii ki s1 - 2 * p in let W := tdim ij kj s2 - 2 * p in length out = H * W ->
  exists out', transposed_convolutional_feed_forward x K ii ij ki kj bias ch out s1 s2 p = Some out' /\ length out' = length out /\
    forall r s, r < H -> s < W -> el out' (r * W + s) = (tfull ii ij ki kj ch s1 s2 K x (p + r) (p + s) + bias)%R.
Proof.
  intros ii ij ki kj ch s1 s2 p K bias x out Hs Hp H W Ho. set (I := tdim ii ki s1) in *. set (J := tdim ij kj s2) in *.
  unfold transposed_convolutional_feed_forward. destruct (tdims ii ij ki kj ch s1 s2 K x Hs) as (-> & -> & ->). cbn zeta. rewrite decide_False by done. fold I J.
  assert (E := scatter_adds ii ij ki kj ch s1 s2 K x Hs (replicate (I * J) 0%R) (replicate_length _ _)). fold I J in E. rewrite E. cbn [mbind option_bind].
  replace (I - p - p) with H by (unfold H; lia). replace (J - p - p) with W by (unfold W; lia).
  match goal with |- context [for_loop H p (fun oi => for_loop W p (@?body oi)) out] =>
    destruct (fill2 (length out) H W p p body (fun r s => r * W + s) (fun r s => tfull ii ij ki kj ch s1 s2 K x (p + r) (p + s) + bias)%R out) as (out' & E' & Hl & H1 & _); [..|exists out'; split; [exact E'|]; split; [done|]; exact H1] end.
  - intros r s l Hr Hs' Hl. unfold H in Hr. unfold W in Hs'. assert (Hlt : (p + r) * J + (p + s) < I * J) by (apply flat_lt; lia).
    rewrite rd_el by (rewrite imap_length, replicate_length; done). rewrite el_imap by (rewrite replicate_length; done). rewrite el_replicate. cbn [mbind option_bind].
    rewrite flat_div, flat_mod by lia. rewrite Rplus_0_l. fold W. replace ((p + r - p) * W + (p + s) - p) with (r * W + s) by (replace (p + r - p) with r by lia; lia). reflexivity.
  - intros r s Hr Hs'. rewrite Ho. by apply flat_lt.
  - intros r s r' s' Hr Hs1 Hr' Hs2 Eq. by apply flat_inj in Eq.
  - done.
Qed.
(** Adjointness: pairing the uncropped, bias-free map with any image y equals pairing the input with the
    convolutions of y by the channels of the same kernel (same strides). *)
Theorem C27_adjoint : forall ii ij ki kj ch s1 s2 K x y, tconv_shape ii ij ki kj ch K x -> s1 <> 0 -> s2 <> 0 ->
  let H := tdim ii ki s1 in let W := tdim ij kj s2 in
  inner (H * W) y (tconv_map ii ij ki kj ch s1 s2 0 K 0 x) =
  sumn ch (fun c => sum2 ii ij (fun a b => at3 ii ij x c a b * corr H W ki kj 1 s1 s2 (channel ki kj c K) y a b))%R.
Proof.
  intros ii ij ki kj ch s1 s2 K x y Hs Hs1 Hs2 H W. pose proof Hs as (_ & _ & HK & _).
  assert (E : inner (H * W) y (tconv_map ii ij ki kj ch s1 s2 0 K 0 x) = sumn (H * W) (fun q => el y q * tfull ii ij ki kj ch s1 s2 K x (q / W) (q mod W))%R).
  { unfold inner. apply sumn_ext. intros q Hq. unfold tconv_map. fold H W. rewrite !Nat.sub_0_r. rewrite el_map_seq by done. cbn [Nat.add]. lra. }
  rewrite E. unfold H, W. rewrite sum_tfull. fold H W.
  rewrite (sum2_ext ii ij _ (fun a b => sumn ch (fun c => at3 ii ij x c a b * corr H W ki kj 1 s1 s2 (channel ki kj c K) y a b)%R)).
  { symmetry. apply sumn_sum2_swap. }
  intros a b Ha Hb. apply sumn_ext. intros c Hc. unfold corr, sum3. cbn [sumn]. rewrite Rplus_0_l, sum2_scal. apply sum2_ext. intros i j Hi Hj.
  assert (Hch : at3 ki kj (channel ki kj c K) 0 i j = at3 ki kj K c i j).
  { unfold at3, el, channel. cbn [Nat.add Nat.mul]. rewrite !nth_lookup. rewrite lookup_take by (by apply flat_lt). rewrite lookup_drop. do 2 f_equal. lia. }
  rewrite Hch. unfold at3 at 4. cbn [Nat.mul Nat.add]. rewrite Rmult_assoc. done.
Qed.
Theorem C27_backward : forall ii ij ki kj ch s1 s2 p K b x oe ke ie be, tconv_shape ii ij ki kj ch K x ->
  let n := (tdim ii ki s1 - 2 * p) * (tdim ij kj s2 - 2 * p) in
  length oe = n -> length ke = length K -> length ie = length x ->
  exists ke' ie' be', transposed_convolutional_back_prop x K ii ij ki kj ch oe (ie, ke, Some be) s1 s2 p = Some (ie', ke', Some be') /\
    grad_added (fun K => inner n oe (tconv_map ii ij ki kj ch s1 s2 p K b x)) K ke ke' /\
    grad_added (fun x => inner n oe (tconv_map ii ij ki kj ch s1 s2 p K b x)) x ie ie' /\
    (exists d, be' = (be + d)%R /\ derivable_pt_lim (fun b => inner n oe (tconv_map ii ij ki kj ch s1 s2 p K b x)) b d).
Proof.
  intros ii ij ki kj ch s1 s2 p K b x oe ke ie be Hs n Ho Hk Hi. pose proof Hs as (_ & _ & HK & HX).
  unfold transposed_convolutional_back_prop. destruct (tdims ii ij ki kj ch s1 s2 K x Hs) as (-> & -> & ->). cbn zeta.
  set (I := tdim ii ki s1) in *. set (J := tdim ij kj s2) in *. set (err := uncrop ii ij ki kj s1 s2 p oe).
  assert (Herr : (if decide (p = 0) then Some oe else unpad oe I J p) = Some err).
  { destruct (decide (p = 0)) as [->|Hp]; [|by apply unpad_run]. f_equal. symmetry. apply uncrop_0. rewrite Ho. unfold n. by rewrite !Nat.sub_0_r. }
  rewrite Herr. cbn [mbind option_bind fst snd]. assert (Hle : length err = I * J) by (unfold err, uncrop; by rewrite map_length, seq_length).
  assert (E := tbp_adds ii ij ki kj ch s1 s2 K x Hs err Hle ie ke ltac:(congruence) ltac:(congruence)). fold I J in E. rewrite E. cbn [mbind option_bind].
  rewrite (for_loop_sum (I * J) _ (el err)) by (intros q Hq; by rewrite rd_el by lia). cbn [mbind option_bind].
  eexists _, _, _. split; [done|]. unfold grad_added. rewrite !imap_length. split; [|split]; [split; [done|]..|].
  - intros k Hlt. eexists. split; [by rewrite el_imap|]. apply (tconv_partial_K ii ij ki kj ch s1 s2 p K b x oe k Hs). lia.
  - intros k Hlt. eexists. split; [by rewrite el_imap|]. apply (tconv_partial_x ii ij ki kj ch s1 s2 p K b x oe k Hs). lia.
  - eexists. split; [done|]. by apply (tconv_partial_b ii ij ki kj ch s1 s2 p K b x oe Hs).
Qed.
Example C27_example : tconv_shape 2 2 2 2 1 [1; 2; 3; 4]%R [1; 2; 3; 4]%R /\ tdim 2 2 2 = 4 /\
  tfull 2 2 2 2 1 2 2 [1; 2; 3; 4]%R [1; 2; 3; 4]%R 3 3 = 16%R.
Proof. split; [by repeat split|]. split; [done|]. unfold tfull, sum3, sum2, at3, el. cbn -[decide]. repeat (rewrite decide_False by lia). rewrite decide_True by lia. lra. Qed.

Print Assumptions C26_backward.
Print Assumptions C27_backward.
