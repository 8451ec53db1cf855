(** What a decoder shows: from the reconstructed components back to the bytes of the caller's pixel format.
    Specification only. *)
From Coq Require Import Reals ZArith List.
From Verif Require Import SImage SDct SApi T81 SReal.
Import ListNotations.
Open Scope R_scope.

(** ITU-T T.871 section 7: the inverse of Y = 0.299 R + 0.587 G + 0.114 B, CB = (B - Y)/1.772 + 128,
    CR = (R - Y)/1.402 + 128. *)
Definition inverse_r (y cb cr : R) : R := y + 1402/1000 * (cr - 128).
Definition inverse_b (y cb cr : R) : R := y + 1772/1000 * (cb - 128).
Definition inverse_g (y cb cr : R) : R := (y - 299/1000 * inverse_r y cb cr - 114/1000 * inverse_b y cb cr) / (587/1000).
Definition inverse (k : nat) : R -> R -> R -> R :=
  match k with O => inverse_r | 1%nat => inverse_g | _ => inverse_b end.

(** Byte [k] of a pixel of format [c], from the components [s].  Adobe's CMYK files hold inverted values; for YCCK the
    three colours are converted like R, G, B.  (The fourth byte of RGBA and BGRA is not in the file.) *)
Definition shown (c : ctype) (s : nat -> R) (k : nat) : R :=
  match c with
  | Luma | Ycbcr | Ycck => s k
  | Rgb | Rgba => inverse k (s 0%nat) (s 1%nat) (s 2%nat)
  | Bgr | Bgra => inverse (2 - k) (s 0%nat) (s 1%nat) (s 2%nat)
  | Cmyk => 255 - s k
  | CmykAsYcck => match k with 3%nat => 255 - s 3%nat | _ => inverse k (s 0%nat) (s 1%nat) (s 2%nat) end
  end.

(** A decoder stores the nearest byte. *)
Definition nearest_byte (x : R) (v : Z) : Prop := (0 <= v <= 255)%Z /\ Rabs (IZR v - Rmax 0 (Rmin 255 x)) <= / 2.

(** Root mean square of an 8x8 block. *)
Definition rms (e : nat -> nat -> R) : R := sqrt (mean_square e).

(** Root mean square of the quantizer errors of a table (0: luma, 1: chroma). *)
Definition table_error (e : R) (s : settings) (d : Z) : R :=
  rms (fun v u => quantizer_error e (quantizer s d (Z.of_nat (8 * v + u)))).

(** The error of byte [k], if the components that use table 0 are off by [e0] and the others by [e1]. *)
Definition mixed (k : nat) (e0 e1 : R) : R :=
  match k with
  | O => e0 + 1402/1000 * e1 + 121/100
  | 1%nat => e0 + 106/100 * e1 + 104/100
  | _ => e0 + 1772/1000 * e1 + 140/100
  end.
Definition pixel_error (c : ctype) (k : nat) (e0 e1 : R) : R :=
  match c with
  | Luma => e0
  | Rgb | Rgba => mixed k e0 e1
  | Bgr | Bgra => mixed (2 - k) e0 e1
  | Ycbcr => match k with O => e0 | _ => e1 end
  | Cmyk => match k with 3%nat => e0 | _ => e1 end
  | CmykAsYcck => match k with 3%nat => e0 | _ => mixed k e0 e1 end
  | Ycck => match k with O | 3%nat => e0 | _ => e1 end
  end.

(** No subsampling: greyscale, or sampling factor 1 x 1. *)
Definition full_resolution (c : ctype) (s : settings) : Prop := spec_color c = JLuma \/ factors (s_sampling s) = (1, 1)%Z.

(** The file [j] shows the image: in every 8x8 block, byte [k] of the pixels a decoder with exact arithmetic stores
    differs from the caller's by at most [bound k] in the root mean square, and nowhere by more than [worst k]. *)
Definition shows (c : ctype) (data : list Z) (w h : Z) (j : jpeg) (bound worst : nat -> R) : Prop :=
  forall by_ bx k (v : nat -> nat -> Z),
    (0 <= by_ < cdiv h 8)%Z -> (0 <= bx < cdiv w 8)%Z -> (Z.of_nat k < num_components (spec_color c))%Z ->
    (forall y x, (y < 8)%nat -> (x < 8)%nat -> nearest_byte (shown c (fun ci => reconstructed j ci by_ bx y x) k) (v y x)) ->
    let given y x := pixel_byte data w (spec_bpp c) (Z.min (h - 1) (8 * by_ + Z.of_nat y)) (Z.min (w - 1) (8 * bx + Z.of_nat x)) (Z.of_nat k) in
    rms (fun y x => IZR (v y x - given y x)) <= bound k /\
    forall y x, (y < 8)%nat -> (x < 8)%nat -> Rabs (IZR (v y x - given y x)) <= worst k.
