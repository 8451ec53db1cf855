(** The quantized blocks in terms of the pure transform and quantizer of the proofs; SApi.v gives the
    independent version used in the property theorems. *)
From Verif Require Export Rust SImage.
From Verif Require Import MImage MQuant PFdct PQuant.

(** Its quantized coefficients in zig-zag order, with forward transform [F] and divisors [q]
    (row-major). *)
Definition coef_block (F : list Z -> list Z) (pl : planes) (W H : Z) (hs vs : Z) (q : qtable) (ci : nat) (by_ bx : Z) : list Z :=
  qblock_pure q (F (sample_block pl W H hs vs ci by_ bx)).
