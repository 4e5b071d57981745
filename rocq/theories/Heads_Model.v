(** Model of the part of multi_head_attention_bp (src/attention.c) that takes the error of the interleaved heads apart, over exact reals.
    The gradient of each head is self_attention_bp of Attn_Model. *)
From Verif Require Import NumLib Attn_Model.
Open Scope nat_scope.

(** attention.c:180-186 multi_head_attention_bp: temp, which holds the errors of the heads one after the other.  The offset in temp is
    i*k_embedding_dimension + j*dimension*k_embedding_dimension (attention.c:184). *)
Definition split_heads (output_error : list R) (dimension n_heads ke ve : nat) : option (list R) :=
  for_loop dimension 0 (λ i, for_loop n_heads 0 (λ j t,
    copy_array output_error (i * n_heads * ve + j * ve) t (i * ke + j * dimension * ke) ve)) (replicate (n_heads * dimension * ve) 0%R).
