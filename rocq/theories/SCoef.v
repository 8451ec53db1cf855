(** Files and their coefficients (C64).  Specification only. *)
From Coq Require Import ZArith List.
From Verif Require Import T81 SApi.
Import ListNotations.
Open Scope Z_scope.

(** All coefficients of the two files are equal. *)
Definition same_coefficients (j1 j2 : jpeg) : Prop :=
  fr_comps (j_frame j1) = fr_comps (j_frame j2) /\
  forall ci c y x k, nth_error (fr_comps (j_frame j1)) ci = Some c ->
    0 <= y < blocks_high (j_frame j1) c -> 0 <= x < blocks_wide (j_frame j1) c -> 0 <= k < 64 -> coef j1 ci y x k = coef j2 ci y x k.

(** The quantized coefficients of two images are equal in every block, also in the blocks beyond the image that fill
    up the last MCUs (there the last row and column are repeated). *)
Definition same_quantized (T : transform) (s : settings) (color : jcolor) (pl1 pl2 : planes) (w h : Z) : Prop :=
  forall ci c y x k, nth_error (comps_of (s_sampling s) color) ci = Some c -> 0 <= y -> 0 <= x -> 0 <= k < 64 ->
    expected T s color pl1 w h ci c y x k = expected T s color pl2 w h ci c y x k.
