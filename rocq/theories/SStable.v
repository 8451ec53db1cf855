(** Small changes of the samples change the coefficients little (C73).  Specification only. *)
From Coq Require Import ZArith Arith List Bool.
From Verif Require Import T81 SImage SDct SApi SReal.
Import ListNotations.
Open Scope Z_scope.

(** No sample of the two blocks differs by more than [e], and all the differences add up to at most [t]. *)
Definition close_samples (pl1 pl2 : planes) (f1 f2 : frame) (ci1 ci2 : nat) (co1 co2 : comp) (by1 bx1 by2 bx2 e t : Z) : Prop :=
  let change y x := Z.abs (sample_at pl2 f2 ci2 co2 by2 bx2 y x - sample_at pl1 f1 ci1 co1 by1 bx1 y x) in
  (forall y x, (y < 8)%nat -> (x < 8)%nat -> change y x <= e) /\
  sum8 (fun y => sum8 (fun x => change y x)) <= t.
(** In dequantized units the coefficients differ by at most 8 e, and by at most t / 4, plus two quantization steps. *)
Definition close_block (j1 j2 : jpeg) (ci1 ci2 : nat) (by1 bx1 by2 bx2 e t : Z) : Prop :=
  exists q, quant j1 ci1 = Some q /\
  forall k, (k < 64)%nat -> exists a b, coef j1 ci1 by1 bx1 (Z.of_nat k) = Some a /\ coef j2 ci2 by2 bx2 (Z.of_nat k) = Some b /\
    Z.abs (nth k q 0 * b - nth k q 0 * a) <= 8 * e + 2 * nth k q 0 /\
    4 * Z.abs (nth k q 0 * b - nth k q 0 * a) <= t + 8 * nth k q 0.

(** Every colour byte of every pixel differs by at most [e] (alpha does not matter). *)
Definition close_image (c : ctype) (data1 data2 : list Z) (w h e : Z) : Prop :=
  forall y x i, 0 <= y < h -> 0 <= x < w -> 0 <= i < spec_bpp c -> (match c with Rgba | Bgra => i < 3 | _ => True end) ->
    Z.abs (pixel_byte data2 w (spec_bpp c) y x i - pixel_byte data1 w (spec_bpp c) y x i) <= e.
(** All coefficients of the two files differ by at most 8 e, dequantized, plus two quantization steps. *)
Definition close_file (j1 j2 : jpeg) (e : Z) : Prop :=
  forall ci co by_ bx, nth_error (fr_comps (j_frame j1)) ci = Some co ->
    0 <= by_ < blocks_high (j_frame j1) co -> 0 <= bx < blocks_wide (j_frame j1) co ->
    close_block j1 j2 ci ci by_ bx by_ bx e (64 * e).
