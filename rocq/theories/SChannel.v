(** Which bytes of the pixels a component of the file depends on (C75).  Specification only. *)
From Coq Require Import ZArith List Bool.
From Verif Require Import T81 SImage SApi SReal.
Import ListNotations.
Open Scope Z_scope.

(** The bytes of a pixel of format [c] that component [ci] of the file is made from: the three colours for Y, Cb and Cr
    converted from RGB or CMY, and the one byte of the channel where nothing is converted.  Alpha occurs nowhere. *)
Definition channels (c : ctype) (ci : nat) : list Z :=
  match c with
  | Luma => [0]
  | Rgb | Rgba | Bgr | Bgra => [0; 1; 2]
  | CmykAsYcck => if (ci <? 3)%nat then [0; 1; 2] else [3]
  | Ycbcr | Cmyk | Ycck => [Z.of_nat ci]
  end.
(** The two images have the same bytes there. *)
Definition same_channels (c : ctype) (data1 data2 : list Z) (w h : Z) (ci : nat) : Prop :=
  forall y x i, 0 <= y < h -> 0 <= x < w -> In i (channels c ci) ->
    pixel_byte data1 w (spec_bpp c) y x i = pixel_byte data2 w (spec_bpp c) y x i.
(** Component [ci] of the two files is the same: size, quantization table and all coefficients. *)
Definition same_component (j1 j2 : jpeg) (ci : nat) : Prop :=
  nth_error (fr_comps (j_frame j1)) ci = nth_error (fr_comps (j_frame j2)) ci /\ quant j1 ci = quant j2 ci /\
  forall co by_ bx k, nth_error (fr_comps (j_frame j1)) ci = Some co ->
    0 <= by_ < blocks_high (j_frame j1) co -> 0 <= bx < blocks_wide (j_frame j1) co -> 0 <= k < 64 ->
    exists v, coef j1 ci by_ bx k = Some v /\ coef j2 ci by_ bx k = Some v.
