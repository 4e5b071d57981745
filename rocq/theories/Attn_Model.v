(** Model of src/attention.c over exact reals (C: float).  The C loops "for(i = 0; i < n; i+=k)" that use i/k are
    loops over the quotient here; "&a[off]" is the array a together with the offset off. *)
From Verif Require Import NumLib Softmax_Model.
Open Scope nat_scope.

(** math_functions.c:824-831 dotProduct1D(&a[oa],&b[ob],size) *)
Definition dotProduct1D (a : list R) (oa : nat) (b : list R) (ob : nat) (size : nat) : option R :=
  sum_loop size (fun i => x ← rd a (oa + i); y ← rd b (ob + i); Some (x * y)%R) 0%R.
(** math_functions.c:917-922 additional_mul_value(&input[oi],value,&output[oo],dimension) *)
Definition additional_mul_value (input : list R) (oi : nat) (value : R) (output : list R) (oo : nat) (dimension : nat) : option (list R) :=
  for_loop dimension 0 (fun i out => x ← rd input (oi + i); addat out (oo + i) (x * value)%R) output.
(** a function that writes through &output[off] *)
Definition at_offset (off : nat) (f : list R -> option (list R)) (output : list R) : option (list R) :=
  r ← f (drop off output); Some (take off output ++ r).

(** attention.c:44-62 self_attention_ff; [masked] = (attention_flag == MASKED_ATTENTION), otherwise STANDARD_ATTENTION.
    Returns score_matrix, score_matrix_softmax and output. *)
Definition self_attention_ff (query key value score soft output : list R) (dimension : nat) (masked : bool) (ke ve : nat) : option (list R * list R * list R) :=
  st ← for_loop dimension 0 (fun i (st : list R * list R) =>
         score ← for_loop dimension 0 (fun j sc => d ← dotProduct1D query (i * ke) key (j * ke) ke; wr sc (i * dimension + j) (d / R_sqrt.sqrt (INR ke))%R) st.1;
         soft ← at_offset (i * dimension) (fun o => softmax (drop (i * dimension) score) o (if masked then i + 1 else dimension)) st.2;
         Some (score, soft)) (score, soft);
  out ← for_loop dimension 0 (fun i => for_loop ve 0 (fun j out =>
          d ← dotProduct1D st.2 (i * dimension) value (j * dimension) dimension; addat out (i * ve + j) d)) output;
  Some (st.1, st.2, out).

(** the error arrays of self_attention_bp *)
Record attn_err := AttnErr { e_query : list R; e_key : list R; e_value : list R; e_score : list R; e_soft : list R }.
(** attention.c:85-112 self_attention_bp *)
Definition self_attention_bp (query key value soft output_error : list R) (e : attn_err) (dimension : nat) (masked : bool) (ke ve : nat) : option attn_err :=
  p ← for_loop dimension 0 (fun i => for_loop ve 0 (fun j (p : list R * list R) =>
        oe ← rd output_error (i * ve + j);
        es ← additional_mul_value value (j * dimension) oe p.1 (i * dimension) dimension;
        ev ← additional_mul_value soft (i * dimension) oe p.2 (j * dimension) dimension;
        Some (es, ev))) (e_soft e, e_value e);
  sc ← for_loop dimension 0 (fun i sc => at_offset (i * dimension) (fun o =>
         derivative_softmax o (drop (i * dimension) soft) (drop (i * dimension) p.1) (if masked then i + 1 else dimension)) sc) (e_score e);
  q ← for_loop dimension 0 (fun i => for_loop dimension 0 (fun j (q : list R * list R) =>
        x ← rd sc (i * dimension + j);
        let val := (x / R_sqrt.sqrt (INR ke))%R in
        ek ← additional_mul_value query (i * ke) val q.1 (j * ke) ke;
        eq ← additional_mul_value key (j * ke) val q.2 (i * ke) ke;
        Some (ek, eq))) (e_key e, e_query e);
  Some (AttnErr q.2 q.1 p.2 sc p.1).

(** utils.c copy_array(&src[os],&dst[od],n) *)
Definition copy_array (src : list R) (os : nat) (dst : list R) (od : nat) (n : nat) : option (list R) :=
  for_loop n 0 (fun i d => x ← rd src (os + i); wr d (od + i) x) dst.
(** attention.c:156-164: the final reshape of multi_head_attention_ff; [output] holds the heads one after the other.
    The offset in the source is i*k_embedding_dimension + j*dimension*k_embedding_dimension (attention.c:160). *)
Definition reshape_heads (output : list R) (dimension n_heads ke ve : nat) : option (list R) :=
  temp ← for_loop dimension 0 (fun i => for_loop n_heads 0 (fun j t =>
           copy_array output (i * ke + j * dimension * ke) t (i * n_heads * ve + j * ve) ve)) (replicate (n_heads * dimension * ve) 0%R);
  copy_array temp 0 output 0 (dimension * n_heads * ve).
