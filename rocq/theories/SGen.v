(** Encoding a decoded image again (C57).  Specification only. *)
From Coq Require Import Reals ZArith List.
From Verif Require Import T81 SApi SReal.
From Verif Require Import MImage MApi.
Import ListNotations.
Open Scope R_scope.

(** Block (by, bx) of component [ci] of the planes [pl] holds what a decoder shows for the file [j]: every sample is
    the exactly reconstructed one, rounded to an integer (and not clamped). *)
Definition rounded (pl : planes) (j : jpeg) (ci : nat) (c : comp) (by_ bx : Z) : Prop :=
  forall y x, (y < 8)%nat -> (x < 8)%nat ->
    Rabs (IZR (sample_at pl (j_frame j) ci c by_ bx y x) - reconstructed j ci by_ bx y x) <= / 2.

(** All quantization steps are at least 11. *)
Definition coarse (s : settings) (color : jcolor) : Prop :=
  forall c i, In c (comps_of (s_sampling s) color) -> (0 <= i < 64)%Z -> (11 <= quantizer s (co_tq c) i)%Z.

(** The file [j] has the quantization tables of these settings. *)
Definition same_tables (s : settings) (color : jcolor) (j : jpeg) : Prop :=
  forall ci c, nth_error (comps_of (s_sampling s) color) ci = Some c ->
    quant j ci = Some (map (fun '(v, u) => quantizer s (co_tq c) (Z.of_nat (8 * v + u))) zigzag).

(** The image consists of whole MCUs: width and height are multiples of 8 times the largest sampling factors. *)
Definition whole_mcus (f : frame) : Prop := (fr_width f mod (8 * hmax f) = 0 /\ fr_height f mod (8 * vmax f) = 0)%Z.
