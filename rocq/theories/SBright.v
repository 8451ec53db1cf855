(** Brightness (C63): adding a constant to the samples.  Specification only. *)
From Coq Require Import ZArith List.
From Verif Require Import T81 SImage SApi SReal.
Import ListNotations.
Open Scope Z_scope.

(** The samples of component [ci'] of image 2 in block (by', bx') are those of component [ci] of image 1 in block
    (by, bx), plus [d]. *)
Definition shifted_samples (pl pl' : planes) (f f' : frame) (ci ci' : nat) (co co' : comp) (by_ bx by_' bx' d : Z) : Prop :=
  forall y x, (y < 8)%nat -> (x < 8)%nat -> sample_at pl' f' ci' co' by_' bx' y x = sample_at pl f ci co by_ bx y x + d.

(** A block of file 2 is a block of file 1 with another mean value: all AC coefficients are equal; the DC coefficient
    goes up with [d], by [8 d] in dequantized units, up to two steps [q] of the quantizer. *)
Definition shifted_block (j1 j2 : jpeg) (ci1 ci2 : nat) (by1 bx1 by2 bx2 d : Z) : Prop :=
  (forall k, 1 <= k < 64 -> exists v, coef j1 ci1 by1 bx1 k = Some v /\ coef j2 ci2 by2 bx2 k = Some v) /\
  exists q rest v1 v2, quant j1 ci1 = Some (q :: rest) /\
    coef j1 ci1 by1 bx1 0 = Some v1 /\ coef j2 ci2 by2 bx2 0 = Some v2 /\
    (0 <= d -> v1 <= v2) /\ (d <= 0 -> v2 <= v1) /\ Z.abs (q * (v2 - v1) - 8 * d) <= 2 * q.

(** A pixel of format [c] with the bytes [p'] is brighter by [d] than one with the bytes [p] (the alpha byte does not
    matter, the black of CMYK-like pixels is the same). *)
Definition brighter_pixel (c : ctype) (p p' : Z -> Z) (d : Z) : Prop :=
  match c with
  | Luma => p' 0 = p 0 + d
  | Rgb | Rgba | Bgr | Bgra => p' 0 = p 0 + d /\ p' 1 = p 1 + d /\ p' 2 = p 2 + d
  | CmykAsYcck => p' 0 = p 0 + d /\ p' 1 = p 1 + d /\ p' 2 = p 2 + d /\ p' 3 = p 3
  | Ycbcr => p' 0 = p 0 + d /\ p' 1 = p 1 /\ p' 2 = p 2
  | Ycck => p' 0 = p 0 + d /\ p' 1 = p 1 /\ p' 2 = p 2 /\ p' 3 = p 3
  | Cmyk => False
  end.
Definition brighter_image (c : ctype) (data data' : list Z) (w h d : Z) : Prop :=
  forall y x, 0 <= y < h -> 0 <= x < w ->
    brighter_pixel c (pixel_byte data w (spec_bpp c) y x) (pixel_byte data' w (spec_bpp c) y x) d.

(** File 2 is file 1 with another brightness: the blocks of component 0 have the same AC coefficients and other
    mean values, all coefficients of all other components are the same. *)
Definition brighter_file (j1 j2 : jpeg) (w h d : Z) : Prop :=
  (forall by_ bx, 0 <= by_ < cdiv h 8 -> 0 <= bx < cdiv w 8 -> shifted_block j1 j2 0 0 by_ bx by_ bx d) /\
  (forall ci co by_ bx k, (1 <= ci)%nat -> nth_error (fr_comps (j_frame j1)) ci = Some co ->
     0 <= by_ < blocks_high (j_frame j1) co -> 0 <= bx < blocks_wide (j_frame j1) co -> 0 <= k < 64 ->
     exists v, coef j1 ci by_ bx k = Some v /\ coef j2 ci by_ bx k = Some v).
