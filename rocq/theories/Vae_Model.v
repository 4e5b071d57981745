(** Model of src/vae_model.c: one pass of a variational autoencoder, forth (vae_model_tensor_input_ff) and back
    (vae_model_tensor_input_bp), and its freeing.  Exact reals; [None] is an access outside a buffer or the use of a null
    pointer.  What encoder and decoder compute, forth and back, are parameters of the model; their parameters do not change
    in a pass.  Over exact reals 1/0 is a real number (0 in Coq): the theorems assume that no std is 0. *)
From Verif Require Import NumLib.
From Coq Require Import Reals.
Open Scope nat_scope.
Notation vec := (list R).

(** math_functions.c:817-822 dot1D and 859-864 sum1D, for input1 = buffer [a] from [ao], input2 = buffer [b] from [bo], output from
    [oo] of a third buffer *)
Definition map2_into (op : R -> R -> R) (a : vec) (ao : nat) (b : vec) (bo : nat) (oo n : nat) (out : vec) : option vec :=
  for_loop n 0 (λ i out, x ← rd a (ao + i); y ← rd b (bo + i); wr out (oo + i) (op x y)) out.
(** the same when the output is also the input [a] (vae_model.c:207), or the input [b] (vae_model.c:235), at the same place *)
Definition map2_in_place (op : R -> R -> R) (b : vec) (bo : nat) (oo n : nat) (out : vec) : option vec :=
  for_loop n 0 (λ i out, x ← rd out (oo + i); y ← rd b (bo + i); wr out (oo + i) (op x y)) out.

(** llab.h, struct vaemodel, without the two networks *)
Record vae := mkVae { latent : nat; vz : vec; veps : vec; dmean : vec; dstd : vec }.

(** vae_model.c:48-53: a new vaemodel *)
Definition new_vae (n : nat) : vae := mkVae n (replicate n 0%R) (replicate n 0%R) (replicate n 0%R) (replicate n 0%R).

Section pass.
  Context {Ge Gd : Type} (enc dec : vec -> vec) (enc_bp : vec -> vec -> vec * Ge) (dec_bp : vec -> vec -> vec * Gd).

  (** vae_model.c:196-211 vae_model_tensor_input_ff; [xi i] is the value of the i-th call of random_normal.  The result: the
      vaemodel, the output layer of the encoder and the output layer of the decoder. *)
  Definition vae_ff (xi : nat -> R) (input : vec) (v : vae) : option (vae * vec * vec) :=
    let y := enc input in
    eps ← for_loop (latent v) 0 (λ i l, wr l i (xi i)) (veps v);
    z ← map2_into Rmult eps 0 y (latent v) 0 (latent v) (vz v);
    z ← map2_in_place Rplus y 0 0 (latent v) z;
    Some (mkVae (latent v) z eps (dmean v) (dstd v), y, dec z).

  (** utils.c:614-617 copy_array; a memcpy of n elements *)
  Definition copy_into (a : vec) (n : nat) (out : vec) : option vec :=
    for_loop n 0 (λ i out, x ← rd a i; wr out i x) out.

  (** vae_model.c:226-229: the derivatives of the regularisation *)
  Definition regularise (y : vec) (v : vae) (ds dm : vec) : option (vec * vec) :=
    for_loop (latent v) 0 (λ j p,
      s ← rd y (latent v + j); d ← rd (fst p) j; ds ← wr (fst p) j (d + (2 * s - 1 / s))%R;
      m ← rd y j; e ← rd (snd p) j; dm ← wr (snd p) j (e + 2 * m)%R;
      Some (ds, dm)) (ds, dm).

  (** vae_model.c:216-245 vae_model_tensor_input_bp; y is the output layer of the encoder of the last forward pass.  The result:
      the vaemodel, the derivatives for the parameters of the decoder, the error given to the encoder, and what the encoder makes of it:
      the error of the input and the derivatives for its parameters. *)
  Definition vae_bp (input error y : vec) (v : vae) : option (vae * Gd * vec * (vec * Ge)) :=
    let n := latent v in
    let '(temp, gd) := dec_bp (vz v) error in
    dm ← copy_into temp n (dmean v);
    ds ← map2_into Rmult temp 0 (veps v) 0 0 n (dstd v);
    p ← regularise y v ds dm;
    temp2 ← map2_into Rplus (snd p) 0 temp 0 0 n (replicate (n * 2) 0%R);
    temp2 ← map2_into Rmult temp 0 (veps v) 0 n n temp2;
    temp2 ← map2_in_place Rplus (fst p) 0 n n temp2;
    Some (mkVae n (vz v) (veps v) (snd p) (fst p), gd, temp2, enc_bp input temp2).
End pass.

(** ** memory *)
(** what variational_auto_encoder_model allocates (vae_model.c:47-54); the networks count as one block each *)
Inductive block := BStruct | BZ | BInput | BDmean | BDstd | BEncoder | BDecoder.
Global Instance block_eq_dec : EqDecision block.
Proof. solve_decision. Defined.
Definition vae_blocks : list block := [BStruct; BZ; BInput; BDmean; BDstd; BEncoder; BDecoder].
(** the block a field of vm points to; a field of NULL cannot be read *)
Definition field (vm : option (list block)) (b : block) : option block := l ← vm; if decide (b ∈ l) then Some b else None.
(** vae_model.c:66-77 free_vae_model.  There is no semicolon behind the return of line 68: the statement returned is the next one,
    free(vm->z), and it is executed only if vm is NULL.  The result: the blocks that are freed. *)
Definition free_vae (vm : option (list block)) : option (list block) :=
  match vm with
  | None => z ← field vm BZ; Some [z]
  | Some _ => bs ← mapM (field vm) [BInput; BDmean; BDstd; BEncoder; BDecoder]; Some (bs ++ [BStruct])
  end.
