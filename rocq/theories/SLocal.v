(** Blocks and the pixels they cover.  Specification only. *)
From Coq Require Import ZArith List Bool.
From Verif Require Import T81 SImage SApi SFile.
Import ListNotations.
Open Scope Z_scope.

(** A component with sampling factors [co_h], [co_v] has one sample for [step_x] x [step_y] pixels; its block
    (by, bx) covers the pixels from (top, left) to below (bottom, right). *)
Definition step_y (f : frame) (c : comp) : Z := vmax f / co_v c.
Definition step_x (f : frame) (c : comp) : Z := hmax f / co_h c.
Definition top (f : frame) (c : comp) (by_ : Z) : Z := 8 * by_ * step_y f c.
Definition left (f : frame) (c : comp) (bx : Z) : Z := 8 * bx * step_x f c.

(** Two images have the same pixel: all its bytes are equal. *)
Definition same_pixel (c : ctype) (data1 : list Z) (w1 y1 x1 : Z) (data2 : list Z) (w2 y2 x2 : Z) : Prop :=
  forall k, 0 <= k < spec_bpp c -> pixel_byte data1 w1 (spec_bpp c) y1 x1 k = pixel_byte data2 w2 (spec_bpp c) y2 x2 k.
(** The blocks (by1, bx1) and (by2, bx2) of a component cover equal pixels (only every [step]-th one in each direction
    matters; beyond the last row and column the last one counts). *)
Definition same_area (ct : ctype) (f1 f2 : frame) (co : comp) (data1 : list Z) (by1 bx1 : Z) (data2 : list Z) (by2 bx2 : Z) : Prop :=
  forall y x, 0 <= y < 8 -> 0 <= x < 8 ->
    same_pixel ct
      data1 (fr_width f1) (Z.min (fr_height f1 - 1) (top f1 co by1 + y * step_y f1 co)) (Z.min (fr_width f1 - 1) (left f1 co bx1 + x * step_x f1 co))
      data2 (fr_width f2) (Z.min (fr_height f2 - 1) (top f2 co by2 + y * step_y f2 co)) (Z.min (fr_width f2 - 1) (left f2 co bx2 + x * step_x f2 co)).

(** The blocks of two decoded files that cover equal pixels have equal coefficients. *)
Definition same_blocks (c : ctype) (data1 data2 : list Z) (j1 j2 : jpeg) : Prop :=
  fr_comps (j_frame j1) = fr_comps (j_frame j2) /\
  forall ci co by1 bx1 by2 bx2 k, nth_error (fr_comps (j_frame j1)) ci = Some co ->
    0 <= by1 < blocks_high (j_frame j1) co -> 0 <= bx1 < blocks_wide (j_frame j1) co ->
    0 <= by2 < blocks_high (j_frame j2) co -> 0 <= bx2 < blocks_wide (j_frame j2) co -> 0 <= k < 64 ->
    same_area c (j_frame j1) (j_frame j2) co data1 by1 bx1 data2 by2 bx2 ->
    exists v, coef j1 ci by1 bx1 k = Some v /\ coef j2 ci by2 bx2 k = Some v.
