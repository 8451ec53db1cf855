(** Specification: the discrete cosine transform of T.81 A.3.3 over the real numbers, and what a decoder with
    exact arithmetic reconstructs from a decoded file.  Nothing of the model of the code is used here. *)
From Coq Require Import Reals ZArith List.
From Verif Require Import SDct SApi T81.
Import ListNotations.
Open Scope R_scope.

Definition rsum8 (f : nat -> R) : R :=
  f 0%nat + f 1%nat + f 2%nat + f 3%nat + f 4%nat + f 5%nat + f 6%nat + f 7%nat.

(** T.81 A.3.3: C_u = 1 / sqrt 2 for u = 0, otherwise 1. *)
Definition dct_c (u : nat) : R := match u with O => / sqrt 2 | _ => 1 end.
Definition dct_cos (x u : nat) : R := cos ((2 * INR x + 1) * INR u * PI / 16).

(** FDCT: the coefficient with vertical frequency [v] and horizontal frequency [u] of the samples [s y x]. *)
Definition exact_dct (s : nat -> nat -> R) (v u : nat) : R :=
  / 4 * dct_c u * dct_c v *
  rsum8 (fun x => rsum8 (fun y => s y x * dct_cos x u * dct_cos y v)).

(** IDCT: the sample in row [y] and column [x]. *)
Definition exact_idct (S : nat -> nat -> R) (y x : nat) : R :=
  / 4 * rsum8 (fun u => rsum8 (fun v => dct_c u * dct_c v * S v u * dct_cos x u * dct_cos y v)).

(** The place of a coefficient in zig-zag order. *)
Fixpoint index_in (l : list (nat * nat)) (v u : nat) : nat :=
  match l with
  | [] => 0
  | (v', u') :: l' => if ((v' =? v) && (u' =? u))%nat%bool then 0 else S (index_in l' v u)
  end.
Definition zigzag_index (v u : nat) : nat := index_in zigzag v u.

(** Dequantized coefficients of a block of a decoded file (T.81 A.3.4). *)
Definition dequantized (j : jpeg) (ci : nat) (by_ bx : Z) (v u : nat) : R :=
  match coef j ci by_ bx (Z.of_nat (zigzag_index v u)), quant j ci with
  | Some c, Some q => IZR (c * nth (zigzag_index v u) q 0%Z)
  | _, _ => 0
  end.
(** The sample a decoder with exact arithmetic reconstructs (before rounding), level shift undone. *)
Definition reconstructed (j : jpeg) (ci : nat) (by_ bx : Z) (y x : nat) : R :=
  exact_idct (dequantized j ci by_ bx) y x + 128.

(** Mean of the squared differences over a block. *)
Definition mean_square (e : nat -> nat -> R) : R := rsum8 (fun y => rsum8 (fun x => e y x * e y x)) / 64.

(** The sample of component [ci] (described by [c] in frame [f]) at row [y], column [x] of block (by, bx):
    components with smaller sampling factors keep every (hmax/h)-th column and every (vmax/v)-th row, and the
    last row and column of the image are repeated to fill the blocks. *)
Definition sample_at (pl : nat -> Z -> Z -> Z) (f : frame) (ci : nat) (c : comp) (by_ bx : Z) (y x : nat) : Z :=
  (pl ci (Z.min (fr_height f - 1) ((8 * by_ + Z.of_nat y) * (vmax f / co_v c)))
         (Z.min (fr_width f - 1) ((8 * bx + Z.of_nat x) * (hmax f / co_h c))))%Z.

(** The largest possible difference of a dequantized coefficient from the exact one for the quantizer [q], if
    the integer transform is within [e] of 8 times the exact one: half a step, plus what the reciprocal loses. *)
Definition quantizer_error (e : R) (q : Z) : R :=
  (if (q =? 1)%Z then / 2 else 5 / 8 * IZR q + / 8 + IZR q * (4 * IZR q + 2) / 65536) + e / 8.

(** Every block of every component of the decoded file [j], reconstructed exactly, differs from the samples of
    the planes [pl] in the mean square by at most the mean square of the quantizer errors. *)
Definition faithful (e : R) (s : settings) (pl : nat -> Z -> Z -> Z) (j : jpeg) : Prop :=
  forall ci c by_ bx, nth_error (fr_comps (j_frame j)) ci = Some c ->
    (0 <= by_ < blocks_high (j_frame j) c)%Z -> (0 <= bx < blocks_wide (j_frame j) c)%Z ->
    mean_square (fun y x => reconstructed j ci by_ bx y x - IZR (sample_at pl (j_frame j) ci c by_ bx y x))
    <= mean_square (fun v u => quantizer_error e (quantizer s (co_tq c) (Z.of_nat (8 * v + u)))).
