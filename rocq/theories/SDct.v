(** Specification: the integer forward transform, the quantizer and the zig-zag order.  Nothing of the
    model of the code is used here. *)
From Coq Require Import ZArith List Bool.
From Verif Require Import STables.
Import ListNotations.
Open Scope Z_scope.

(** ** Forward transform
    An 8x8 integer matrix: row [u] approximates 8192 * sqrt 2 * cos ((2x+1) u pi / 16) (8192 for u = 0);
    property C17 relates it to the exact DCT. *)
Definition dct_matrix : list (list Z) :=
  [[ 8192;   8192;   8192;   8192;   8192;   8192;   8192;   8192];
   [11363;   9633;   6437;   2260;  -2260;  -6437;  -9633; -11363];
   [10703;   4433;  -4433; -10703; -10703;  -4433;   4433;  10703];
   [ 9633;  -2259; -11362;  -6436;   6436;  11362;   2259;  -9633];
   [ 8192;  -8192;  -8192;   8192;   8192;  -8192;  -8192;   8192];
   [ 6437; -11362;   2261;   9633;  -9633;  -2261;  11362;  -6437];
   [ 4433; -10704;  10704;  -4433;  -4433;  10704; -10704;   4433];
   [ 2260;  -6436;   9633; -11363;  11363;  -9633;   6436;  -2260]].
Definition dct_entry (u x : nat) : Z := nth x (nth u dct_matrix []) 0.

Definition sum8 (f : nat -> Z) : Z := f 0%nat + f 1%nat + f 2%nat + f 3%nat + f 4%nat + f 5%nat + f 6%nat + f 7%nat.

(** Division by 2^n, rounded to nearest (halves up). *)
Definition round_shift (x n : Z) : Z := (x + 2 ^ (n - 1)) / 2 ^ n.

(** Rows first: [s y x] is the sample in row y, column x; the result is indexed by the row and the
    horizontal frequency [u]. *)
Definition row_dct (s : nat -> nat -> Z) (y u : nat) : Z :=
  round_shift (sum8 (fun x => dct_entry u x * s y x)) 11.
(** Then columns: coefficient with vertical frequency [v] and horizontal frequency [u]. *)
Definition int_dct (s : nat -> nat -> Z) (v u : nat) : Z :=
  round_shift (sum8 (fun y => dct_entry v y * row_dct s y u)) 15.

(** ** Quantizer: division by [d] through a 15-bit reciprocal (property C15 relates it to exact
    rounding). *)
Definition recip (d : Z) : Z := (2 * 2 ^ 15 + d - 1) / (2 * d).          (* 2^15 / d to nearest *)
Definition bias (d : Z) : Z := d / 2 + (if recip d * d <? 2 ^ 15 then 1 else 0).
Definition int_quantize (d v : Z) : Z := Z.sgn v * ((Z.abs v + bias d) * recip d / 2 ^ 15).

(** ** Zig-zag order (T.81 Figure A.6): the anti-diagonals of the 8x8 array, walked alternately downwards
    and upwards. *)
Definition diagonal (s : nat) : list (nat * nat) :=
  filter (fun '(r, c) => (r <? 8)%nat && (c <? 8)%nat)
         (map (fun r => (r, (s - r)%nat)) (seq 0 (S s))).
Definition zigzag : list (nat * nat) :=
  flat_map (fun s => if Nat.even s then rev (diagonal s) else diagonal s) (seq 0 15).
(** Row and column of the k-th coefficient. *)
Definition zigzag_pos (k : Z) : nat * nat := nth (Z.to_nat k) zigzag (0%nat, 0%nat).

(** ** Quantization tables *)
(** The libjpeg quality scaling of a table entry: a percentage, rounded, limited to 1..255. *)
Definition percent (quality : Z) : Z :=
  let q := Z.max 1 (Z.min 100 quality) in
  if q <? 50 then 5000 / q else 200 - 2 * q.
Definition scaled (quality v : Z) : Z := Z.max 1 (Z.min 255 ((v * percent quality + 50) / 100)).
