(** The negative of an image (C76).  Specification only. *)
From Coq Require Import ZArith Arith List Bool.
From Verif Require Import T81 SImage SDct SApi SReal.
Import ListNotations.
Open Scope Z_scope.

(** The samples of block 2 are 255 minus those of block 1, up to [e]. *)
Definition negative_samples (pl1 pl2 : planes) (f1 f2 : frame) (ci1 ci2 : nat) (co1 co2 : comp) (by1 bx1 by2 bx2 e : Z) : Prop :=
  forall y x, (y < 8)%nat -> (x < 8)%nat ->
    Z.abs (sample_at pl2 f2 ci2 co2 by2 bx2 y x + sample_at pl1 f1 ci1 co1 by1 bx1 y x - 255) <= e.
(** The coefficients of block 2 are those of block 1 with the other sign: exactly negative samples change no AC
    coefficient by more than one step; in dequantized units all coefficients are within 8 (e + 1) and two steps. *)
Definition negative_block (j1 j2 : jpeg) (ci1 ci2 : nat) (by1 bx1 by2 bx2 e : Z) : Prop :=
  exists q, quant j1 ci1 = Some q /\
  forall k, (k < 64)%nat -> exists a b, coef j1 ci1 by1 bx1 (Z.of_nat k) = Some a /\ coef j2 ci2 by2 bx2 (Z.of_nat k) = Some b /\
    Z.abs (nth k q 0 * b + nth k q 0 * a) <= 8 * (e + 1) + 2 * nth k q 0 /\
    (e = 0 -> (0 < k)%nat -> Z.abs (b + a) <= 1).

(** Every colour byte of every pixel is 255 minus the other one (alpha does not matter). *)
Definition negative_image (c : ctype) (data1 data2 : list Z) (w h : Z) : Prop :=
  forall y x i, 0 <= y < h -> 0 <= x < w -> 0 <= i < spec_bpp c -> (match c with Rgba | Bgra => i < 3 | _ => True end) ->
    pixel_byte data2 w (spec_bpp c) y x i = 255 - pixel_byte data1 w (spec_bpp c) y x i.
(** Samples computed from three colours are rounded: 1; the others are the bytes themselves: 0. *)
Definition rounding (c : ctype) (ci : nat) : Z :=
  match c with
  | Rgb | Rgba | Bgr | Bgra => 1
  | CmykAsYcck => if (ci <? 3)%nat then 1 else 0
  | Luma | Ycbcr | Cmyk | Ycck => 0
  end.
Definition negative_file (c : ctype) (j1 j2 : jpeg) : Prop :=
  forall ci co by_ bx, nth_error (fr_comps (j_frame j1)) ci = Some co ->
    0 <= by_ < blocks_high (j_frame j1) co -> 0 <= bx < blocks_wide (j_frame j1) co ->
    negative_block j1 j2 ci ci by_ bx by_ bx (rounding c ci).
