(** Specification: the transform of the SIMD build.  It is [int_dct] (SDct.v) except that the coefficients in
    rows 0 and 4 and odd columns are not rounded to nearest but rounded down. *)
From Coq Require Import ZArith Arith List Bool.
From Verif Require Import SDct.
Open Scope Z_scope.

Definition unrounded (v u : nat) : bool := ((v =? 0) || (v =? 4))%nat && Nat.odd u.
Definition avx2_dct (s : nat -> nat -> Z) (v u : nat) : Z :=
  if unrounded v u then sum8 (fun y => dct_entry v y * row_dct s y u) / 2 ^ 15 else int_dct s v u.
