(** Specification: what the components of an encoded image are, in terms of the caller's bytes or of the
    caller's ImageBuffer.  Only the types of the public API (colour enumerations, ImageBuffer) are
    taken from the model. *)
From Coq Require Import ZArith List.
From Verif Require Export Rust MImage.
Import ListNotations.
Open Scope Z_scope.

(** A planar image: sample of component [ci] at row [y], column [x]. *)
Definition planes := nat -> Z -> Z -> Z.

(** The 8x8 samples of block (by, bx) of a component subsampled by [hs] x [vs] (every [hs]-th column
    and [vs]-th row), level shifted by 128; positions beyond the image repeat the last row and
    column. *)
Definition sample_block (pl : planes) (W H : Z) (hs vs : Z) (ci : nat) (by_ bx : Z) : list Z :=
  map (fun i => pl ci (Z.min (H - 1) ((8 * by_ + i / 8) * vs))
                      (Z.min (W - 1) ((8 * bx + i mod 8) * hs)) - 128) (zrange 64).

(** An image buffer that presents [pl]: row [y] appends [pl i y 0 .. pl i y (W-1)] to channel [i] for
    every component, leaves the other channels alone, and writes nothing else. *)
Definition append_row (n : nat) (pl : planes) (W y : Z) (bs : bufs) : bufs :=
  map (fun '(i, b) => if (i <? n)%nat then b ++ map (fun x => pl i y x) (zrange W) else b)
      (combine (seq 0 (length bs)) bs).

Record image_ok (im : image) (pl : planes) : Prop := {
  io_width : 1 <= im_width im <= 65535;
  io_height : 1 <= im_height im <= 65535;
  io_range : forall i y x, (Z.of_nat i < num_components (im_color im)) ->
               0 <= y < im_height im -> 0 <= x < im_width im -> 0 <= pl i y x <= 255;
  io_fill : forall y bs, 0 <= y < im_height im -> length bs = 4%nat ->
               exec (im_fill im y bs)
               = ([], Ok (append_row (Z.to_nat (num_components (im_color im))) pl (im_width im) y bs))
}.

(** Byte [k] of pixel (y, x) of a row-major image with [bpp] bytes per pixel. *)
Definition pixel_byte (data : list Z) (w bpp y x k : Z) : Z :=
  nth (Z.to_nat ((y * w + x) * bpp + k)) data 0.

(** Bytes per pixel of the pixel formats. *)
Definition spec_bpp (c : ctype) : Z :=
  match c with Luma => 1 | Rgb | Bgr | Ycbcr => 3 | Rgba | Bgra | Cmyk | CmykAsYcck | Ycck => 4 end.

(** JFIF colour conversion in 16-bit fixed point, rounded (what these numbers mean in real numbers is
    the subject of property C22). *)
Definition spec_y (r g b : Z) : Z := (19595 * r + 38470 * g + 7471 * b + 32767) / 65536.
Definition spec_cb (r g b : Z) : Z := (-11059 * r - 21709 * g + 32768 * b + 8388608 + 32767) / 65536.
Definition spec_cr (r g b : Z) : Z := (32768 * r - 27439 * g - 5329 * b + 8388608 + 32767) / 65536.
Definition spec_ycc (i : nat) (r g b : Z) : Z :=
  match i with O => spec_y r g b | 1%nat => spec_cb r g b | _ => spec_cr r g b end.

(** The sample of component [i] at (y, x). *)
Definition spec_plane (c : ctype) (data : list Z) (w : Z) (i : nat) (y x : Z) : Z :=
  let p := pixel_byte data w (spec_bpp c) y x in
  match c with
  | Luma => p 0
  | Rgb | Rgba => spec_ycc i (p 0) (p 1) (p 2)
  | Bgr | Bgra => spec_ycc i (p 2) (p 1) (p 0)
  | Ycbcr => p (Z.of_nat i)
  | Cmyk => 255 - p (Z.of_nat i)
  | CmykAsYcck => if (i <? 3)%nat then spec_ycc i (p 0) (p 1) (p 2) else 255 - p 3
  | Ycck => p (Z.of_nat i)
  end.

(** Colour space of the file. *)
Definition spec_color (c : ctype) : jcolor :=
  match c with
  | Luma => JLuma
  | Rgb | Rgba | Bgr | Bgra | Ycbcr => JYcbcr
  | Cmyk => JCmyk
  | CmykAsYcck | Ycck => JYcck
  end.
