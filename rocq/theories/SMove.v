(** Rotating and mirroring an image, and symmetric or striped areas (C72).  Specification only. *)
From Coq Require Import ZArith Arith List Bool.
From Verif Require Import T81 SImage SDct SApi SReal SEncode.
Import ListNotations.
Open Scope Z_scope.

(** The eight ways to turn a rectangle over: rows and columns exchanged or not, upside down or not, left to right or
    not.  (Rotation by 90 degrees is [transpose] with one of the others, by 180 degrees both of the others.) *)
Record motion := { transpose : bool; upside_down : bool; mirror : bool }.
(** The place (y, x) of the new picture shows the place [moved m h w (y, x)] of the old one, of height h and width w. *)
Definition moved (m : motion) (h w : Z) (p : Z * Z) : Z * Z :=
  let '(y, x) := if transpose m then (snd p, fst p) else p in
  (if upside_down m then h - 1 - y else y, if mirror m then w - 1 - x else x).
(** The frequency (v, u) of the new picture is this one of the old one, with this sign. *)
Definition moved_frequency (m : motion) (p : nat * nat) : nat * nat := if transpose m then (snd p, fst p) else p.
Definition moved_sign (m : motion) (p : nat * nat) : Z :=
  (if upside_down m && Nat.odd (fst p) then -1 else 1) * (if mirror m && Nat.odd (snd p) then -1 else 1).

(** The samples of block 2 are those of block 1, moved. *)
Definition moved_samples (m : motion) (pl1 pl2 : planes) (f1 f2 : frame) (ci1 ci2 : nat) (co1 co2 : comp) (by1 bx1 by2 bx2 : Z) : Prop :=
  forall y x, (y < 8)%nat -> (x < 8)%nat -> forall y' x', moved m 8 8 (Z.of_nat y, Z.of_nat x) = (Z.of_nat y', Z.of_nat x') ->
    sample_at pl2 f2 ci2 co2 by2 bx2 y x = sample_at pl1 f1 ci1 co1 by1 bx1 y' x'.
(** The quantization table of component 2 is that of component 1 (transposed if rows and columns are exchanged). *)
Definition moved_table (m : motion) (j1 j2 : jpeg) (ci1 ci2 : nat) : Prop :=
  forall q1 q2 k1 k2, quant j1 ci1 = Some q1 -> quant j2 ci2 = Some q2 -> (k1 < 64)%nat -> (k2 < 64)%nat ->
    zigzag_pos (Z.of_nat k1) = moved_frequency m (zigzag_pos (Z.of_nat k2)) -> nth k2 q2 0 = nth k1 q1 0.
(** The coefficients of block 2 are those of block 1, moved, up to one quantization step. *)
Definition moved_block (m : motion) (j1 j2 : jpeg) (ci1 ci2 : nat) (by1 bx1 by2 bx2 : Z) : Prop :=
  forall k1 k2, 0 <= k1 < 64 -> 0 <= k2 < 64 -> zigzag_pos k1 = moved_frequency m (zigzag_pos k2) ->
    exists a b, coef j1 ci1 by1 bx1 k1 = Some a /\ coef j2 ci2 by2 bx2 k2 = Some b /\
      Z.abs (b - moved_sign m (zigzag_pos k1) * a) <= 1.

(** No component is subsampled. *)
Definition full_resolution (f : frame) : Prop := forall co, In co (fr_comps f) -> hmax f / co_h co = 1 /\ vmax f / co_v co = 1.
(** Image 2, of width [w2] and height [h2], is image 1 moved: pixel by pixel, byte by byte. *)
Definition moved_image (m : motion) (c : ctype) (data1 : list Z) (w1 h1 : Z) (data2 : list Z) (w2 h2 : Z) : Prop :=
  (if transpose m then w2 = h1 /\ h2 = w1 else w2 = w1 /\ h2 = h1) /\
  forall y x y' x' i, 0 <= y < h2 -> 0 <= x < w2 -> 0 <= i < spec_bpp c -> moved m h1 w1 (y, x) = (y', x') ->
    pixel_byte data2 w2 (spec_bpp c) y x i = pixel_byte data1 w1 (spec_bpp c) y' x' i.
(** The sides that are turned over are made up of whole blocks. *)
Definition whole_blocks (m : motion) (w1 h1 : Z) : Prop :=
  (upside_down m = true -> h1 mod 8 = 0) /\ (mirror m = true -> w1 mod 8 = 0).
(** The same configuration, except for the quantization tables, which are transposed if rows and columns are exchanged. *)
Definition moved_quantizers (m : motion) (s1 s2 : settings) : Prop :=
  forall dest v u, (v < 8)%nat -> (u < 8)%nat ->
    quantizer s2 dest (Z.of_nat (8 * v + u)) = quantizer s1 dest (Z.of_nat (let '(v', u') := moved_frequency m (v, u) in 8 * v' + u')).
(** File 2 is file 1 moved: block by block, coefficient by coefficient. *)
Definition moved_file (m : motion) (j1 j2 : jpeg) (w1 h1 w2 h2 : Z) : Prop :=
  forall ci by1 bx1 by2 bx2, (ci < length (fr_comps (j_frame j2)))%nat -> 0 <= by2 < cdiv h2 8 -> 0 <= bx2 < cdiv w2 8 ->
    moved m (cdiv h1 8) (cdiv w1 8) (by2, bx2) = (by1, bx1) -> moved_block m j1 j2 ci ci by1 bx1 by2 bx2.

(** ** Stripes and symmetric areas *)
Inductive pattern := Even_rows | Even_columns | Left_right | Top_bottom.
(** In the block all rows are of one brightness each, or all columns, or the left half is the mirror image of the right
    half, or the upper half that of the lower half. *)
Definition has_pattern (p : pattern) (s : nat -> nat -> Z) : Prop :=
  forall y x, (y < 8)%nat -> (x < 8)%nat ->
    match p with
    | Even_rows => s y x = s y 0%nat
    | Even_columns => s y x = s 0%nat x
    | Left_right => s y x = s y (7 - x)%nat
    | Top_bottom => s y x = s (7 - y)%nat x
    end.
(** The frequencies that are then absent. *)
Definition absent (p : pattern) (vu : nat * nat) : bool :=
  match p with
  | Even_rows => negb (snd vu =? 0)%nat
  | Even_columns => negb (fst vu =? 0)%nat
  | Left_right => Nat.odd (snd vu)
  | Top_bottom => Nat.odd (fst vu)
  end.
