(** Specification: an image encoded in strips (property C69). *)
From Coq Require Import ZArith List.
From Verif Require Import T81 SFile SApi SImage.
Import ListNotations.
Open Scope Z_scope.

(** How the file of the whole image (height [h1 + h2]) is put together from the files of its upper strip (height [h1])
    and its lower strip (height [h2]): the frame header with the heights added; the restart intervals of every scan of
    the upper file followed by those of the lower one; all other segments are equal in the three files. *)
Inductive stacked_part (h1 h2 : Z) : part -> part -> part -> Prop :=
| stacked_frame m rest : m = 192 \/ m = 194 ->
    stacked_part h1 h2 (Segment m (8 :: u16_bytes h1 ++ rest)) (Segment m (8 :: u16_bytes h2 ++ rest)) (Segment m (8 :: u16_bytes (h1 + h2) ++ rest))
| stacked_scan hd ds1 ds2 : stacked_part h1 h2 (Scan hd ds1) (Scan hd ds2) (Scan hd (ds1 ++ ds2))
| stacked_other m d : m <> 192 -> m <> 194 -> stacked_part h1 h2 (Segment m d) (Segment m d) (Segment m d).
Inductive stacked (h1 h2 : Z) : list part -> list part -> list part -> Prop :=
| stacked_nil : stacked h1 h2 [] [] []
| stacked_cons p1 p2 p ps1 ps2 ps : stacked_part h1 h2 p1 p2 p -> stacked h1 h2 ps1 ps2 ps -> stacked h1 h2 (p1 :: ps1) (p2 :: ps2) (p :: ps).
(** The three runs succeed, with such files. *)
Definition runs_stack {A} (ok : A) (h1 h2 : Z) (run1 run2 run : list Z * A) : Prop :=
  exists ps1 ps2 ps, run1 = (render_file ps1, ok) /\ run2 = (render_file ps2, ok) /\ run = (render_file ps, ok) /\ stacked h1 h2 ps1 ps2 ps.

(** The image can be cut at height [h1]: a whole number of MCUs, and in every scan a whole number of restart intervals. *)
Definition can_cut (s : settings) (color : jcolor) (w h1 : Z) : Prop :=
  let f := frame_for s color w h1 in
  h1 mod (8 * vmax f) = 0 /\ 0 < s_restart s /\ forall si, In si (scan_script s color) -> mcu_count f si mod s_restart s = 0.

(** The planes [pl1] (height [h1]) and [pl2] (height [h2]) are the upper and the lower part of [pl]. *)
Definition cut_planes (color : jcolor) (w h1 h2 : Z) (pl1 pl2 pl : planes) : Prop :=
  forall ci y x, Z.of_nat ci < num_components color -> 0 <= x < w ->
    (0 <= y < h1 -> pl ci y x = pl1 ci y x) /\ (0 <= y < h2 -> pl ci (h1 + y) x = pl2 ci y x).
