(** Luminance and chrominance settings (C65).  Specification only. *)
From Coq Require Import ZArith List.
From Verif Require Import T81.
Import ListNotations.
Open Scope Z_scope.

(** The components with quantization table 0 (Y, the K of CMYK and YCCK) are coded in full resolution, with the same
    coefficients in both files, for an image of w x h pixels. *)
Definition same_luminance (j1 j2 : jpeg) (w h : Z) : Prop :=
  forall ci co by_ bx k, nth_error (fr_comps (j_frame j1)) ci = Some co -> co_tq co = 0 ->
    0 <= by_ < cdiv h 8 -> 0 <= bx < cdiv w 8 -> 0 <= k < 64 ->
    exists v, coef j1 ci by_ bx k = Some v /\ coef j2 ci by_ bx k = Some v.
(** The components with quantization table 1 (Cb, Cr; the C, M, Y of CMYK) have the same coefficients in both files. *)
Definition same_chrominance (j1 j2 : jpeg) : Prop :=
  forall ci co by_ bx k, nth_error (fr_comps (j_frame j1)) ci = Some co -> co_tq co = 1 ->
    0 <= by_ < blocks_high (j_frame j1) co -> 0 <= bx < blocks_wide (j_frame j1) co -> 0 <= k < 64 ->
    exists v, coef j1 ci by_ bx k = Some v /\ coef j2 ci by_ bx k = Some v.
