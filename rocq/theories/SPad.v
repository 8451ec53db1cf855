(** Specification: an image continued beyond its edges (property C67). *)
From Verif Require Import T81 SImage SApi SMeta MImage MEncoder.
From Coq Require Import ZArith List.
Import ListNotations.
Open Scope Z_scope.

(** A larger image with the same number of blocks of 8 x 8 pixels. *)
Definition fills_up (w h w2 h2 : Z) : Prop := w <= w2 <= 8 * cdiv w 8 /\ h <= h2 <= 8 * cdiv h 8.
(** The larger image repeats the last column and row of the smaller one: for planes, and for the bytes of the caller. *)
Definition continues (color : jcolor) (pl pl2 : planes) (w h w2 h2 : Z) : Prop :=
  forall i y x, Z.of_nat i < num_components color -> 0 <= y < h2 -> 0 <= x < w2 -> pl2 i y x = pl i (Z.min (h - 1) y) (Z.min (w - 1) x).
Definition continues_bytes (bpp : Z) (data data2 : list Z) (w h w2 h2 : Z) : Prop :=
  forall y x k, 0 <= y < h2 -> 0 <= x < w2 -> 0 <= k < bpp ->
    pixel_byte data2 w2 bpp y x k = pixel_byte data w bpp (Z.min (h - 1) y) (Z.min (w - 1) x) k.

(** Two files that differ in the four bytes of the dimensions in the frame header only: before them come SOI, the
    metadata, the SOF marker, the length of its segment and the precision. *)
Definition up_to_dimensions (s : settings) (color : jcolor) : list Z :=
  [255; 216] ++ metadata s color ++
  [255; match s_scans s with Some _ => 194 | None => 192 end; 0; 8 + 3 * Z.of_nat (length (comps_of (s_sampling s) color)); 8].
Definition differ_in_dimensions (s : settings) (color : jcolor) (w h w2 h2 : Z) (b b2 : list Z) : Prop :=
  exists rest, b = up_to_dimensions s color ++ [h / 256; h mod 256; w / 256; w mod 256] ++ rest /\
               b2 = up_to_dimensions s color ++ [h2 / 256; h2 mod 256; w2 / 256; w2 mod 256] ++ rest.
(** If one run succeeds then so does the other, with such a file. *)
Definition same_but_dimensions {A} (ok : A) (s : settings) (color : jcolor) (w h w2 h2 : Z) (run run2 : list Z * A) : Prop :=
  (forall b, run = (b, ok) -> exists b2, run2 = (b2, ok) /\ differ_in_dimensions s color w h w2 h2 b b2) /\
  (forall b2, run2 = (b2, ok) -> exists b, run = (b, ok) /\ differ_in_dimensions s color w h w2 h2 b b2).
