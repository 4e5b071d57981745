(** Specification for the two layouts of the output of several attention heads *)
From Verif Require Import NumLib.
Open Scope nat_scope.

(** where channel c of token i of head j is, when the heads follow each other and when the heads of a token are side by side *)
Definition by_head (tokens heads width i j c : nat) : nat := (j * tokens + i) * width + c.
Definition by_token (tokens heads width i j c : nat) : nat := (i * heads + j) * width + c.
