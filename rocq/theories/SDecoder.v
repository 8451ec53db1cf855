(** Decoders that do not compute exactly (C59).  Specification only. *)
From Coq Require Import Reals ZArith List.
From Verif Require Import SImage SDct SApi T81 SReal SPixels.
Import ListNotations.
Open Scope R_scope.

Definition clip (x : R) : R := Rmax 0 (Rmin 255 x).
(** [smp ci by bx y x] is what a decoder has for the sample in row [y], column [x] of block (by, bx) of component [ci] of
    the file [j], after its inverse transform: off by at most [d] from the exact value, clamped to 0..255 or not.  (A
    decoder that rounds the exact value to the nearest integer has [d] = 1/2; one that satisfies the peak error
    requirement of IEEE 1180 and rounds has at most 3/2.) *)
Definition decodes_within (d : R) (j : jpeg) (smp : nat -> Z -> Z -> nat -> nat -> R) : Prop :=
  forall ci co by_ bx y x, nth_error (fr_comps (j_frame j)) ci = Some co ->
    (0 <= by_ < blocks_high (j_frame j) co)%Z -> (0 <= bx < blocks_wide (j_frame j) co)%Z -> (y < 8)%nat -> (x < 8)%nat ->
    Rabs (smp ci by_ bx y x - reconstructed j ci by_ bx y x) <= d \/ Rabs (smp ci by_ bx y x - clip (reconstructed j ci by_ bx y x)) <= d.

(** The samples of every such decoder are those of the planes [pl], in every block up to [table_error + d] in the root
    mean square, and everywhere up to [8 table_error + d]. *)
Definition samples_within (d e : R) (s : settings) (pl : planes) (j : jpeg) : Prop :=
  forall smp, decodes_within d j smp ->
  forall ci co by_ bx, nth_error (fr_comps (j_frame j)) ci = Some co ->
    (0 <= by_ < blocks_high (j_frame j) co)%Z -> (0 <= bx < blocks_wide (j_frame j) co)%Z ->
    let off y x := smp ci by_ bx y x - IZR (sample_at pl (j_frame j) ci co by_ bx y x) in
    rms off <= table_error e s (co_tq co) + d /\
    forall y x, (y < 8)%nat -> (x < 8)%nat -> Rabs (off y x) <= 8 * table_error e s (co_tq co) + d.

(** A byte that is off by at most [g] from [x], clamped. *)
Definition byte_within (g x : R) (v : Z) : Prop := (0 <= v <= 255)%Z /\ Rabs (IZR v - clip x) <= g.

(** Files without subsampling: the pixels that such a decoder shows, with a colour conversion that is off by at most [g]. *)
Definition shows_within (d g : R) (c : ctype) (data : list Z) (w h : Z) (j : jpeg) (bound worst : nat -> R) : Prop :=
  forall smp, decodes_within d j smp ->
  forall by_ bx k (v : nat -> nat -> Z),
    (0 <= by_ < cdiv h 8)%Z -> (0 <= bx < cdiv w 8)%Z -> (Z.of_nat k < num_components (spec_color c))%Z ->
    (forall y x, (y < 8)%nat -> (x < 8)%nat -> byte_within g (shown c (fun ci => smp ci by_ bx y x) k) (v y x)) ->
    let given y x := pixel_byte data w (spec_bpp c) (Z.min (h - 1) (8 * by_ + Z.of_nat y)) (Z.min (w - 1) (8 * bx + Z.of_nat x)) (Z.of_nat k) in
    rms (fun y x => IZR (v y x - given y x)) <= bound k /\
    forall y x, (y < 8)%nat -> (x < 8)%nat -> Rabs (IZR (v y x - given y x)) <= worst k.
