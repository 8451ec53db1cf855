(** Components that are encoded alike, and grey images (C58).  Specification only. *)
From Coq Require Import Reals ZArith List.
From Verif Require Import T81 SImage SApi SReal.
Import ListNotations.
Open Scope Z_scope.

(** The bytes [p 0], [p 1], ... of a pixel of format [c] are those of a grey pixel of brightness [v] (for YCCK: any black). *)
Definition grey_pixel (c : ctype) (p : Z -> Z) (v : Z) : Prop :=
  match c with
  | Luma => p 0 = v
  | Rgb | Rgba | Bgr | Bgra | CmykAsYcck => p 0 = v /\ p 1 = v /\ p 2 = v
  | Ycbcr | Ycck => p 0 = v /\ p 1 = 128 /\ p 2 = 128
  | Cmyk => False
  end.
(** The image is grey, of the brightness of the greyscale image [grey]. *)
Definition grey_image (c : ctype) (data : list Z) (grey : list Z) (w h : Z) : Prop :=
  forall y x, 0 <= y < h -> 0 <= x < w -> grey_pixel c (pixel_byte data w (spec_bpp c) y x) (pixel_byte grey w 1 y x 0).

(** The file [j] has, apart from component 3, the luminance of the greyscale file [jg], coefficient by coefficient,
    and no colour: every coefficient of the components 1 and 2 is zero. *)
Definition same_grey (j jg : jpeg) (w h : Z) : Prop :=
  quant j 0 = quant jg 0 /\
  (forall by_ bx k, 0 <= by_ < cdiv h 8 -> 0 <= bx < cdiv w 8 -> 0 <= k < 64 ->
     exists v, coef j 0 by_ bx k = Some v /\ coef jg 0 by_ bx k = Some v) /\
  (forall ci co by_ bx k, (1 <= ci <= 2)%nat -> nth_error (fr_comps (j_frame j)) ci = Some co ->
     0 <= by_ < blocks_high (j_frame j) co -> 0 <= bx < blocks_wide (j_frame j) co -> 0 <= k < 64 -> coef j ci by_ bx k = Some 0).

(** Component [ci] of image 1 and component [ci'] of image 2 have the same samples in the blocks (by, bx) and
    (by', bx').  The samples of a component are those of every (vmax/v)-th row and every (hmax/h)-th column (C25). *)
Definition same_samples (pl pl' : planes) (f f' : frame) (ci ci' : nat) (co co' : comp) (by_ bx by_' bx' : Z) : Prop :=
  forall y x, (y < 8)%nat -> (x < 8)%nat -> sample_at pl f ci co by_ bx y x = sample_at pl' f' ci' co' by_' bx' y x.

(** What a decoder with exact arithmetic reconstructs: the brightness of the greyscale file, and chroma 128. *)
Definition shows_grey (j jg : jpeg) (w h : Z) : Prop :=
  (forall by_ bx y x, 0 <= by_ < cdiv h 8 -> 0 <= bx < cdiv w 8 -> (y < 8)%nat -> (x < 8)%nat ->
     reconstructed j 0 by_ bx y x = reconstructed jg 0 by_ bx y x) /\
  (forall ci co by_ bx y x, (1 <= ci <= 2)%nat -> nth_error (fr_comps (j_frame j)) ci = Some co ->
     0 <= by_ < blocks_high (j_frame j) co -> 0 <= bx < blocks_wide (j_frame j) co -> (y < 8)%nat -> (x < 8)%nat ->
     reconstructed j ci by_ bx y x = 128%R).
