(** The part of a file that is settled once the first rows of the image are known (C77).  Specification only. *)
From Coq Require Import ZArith List Bool.
From Verif Require Import T81 SFile SImage SApi SLocal SSize.
Import ListNotations.
Open Scope Z_scope.

(** The blocks of the first [k] MCUs of a scan. *)
Definition first_units (f : frame) (si : scan_info) (k : nat) : list unit_pos := concat (firstn k (mcus_of f si)).
(** They cover pixels of the first [n] rows only. *)
Definition made_of_rows (f : frame) (si : scan_info) (k : nat) (n : Z) : Prop :=
  forall ci y x c, In (ci, y, x) (first_units f si k) -> nth_error (fr_comps f) ci = Some c -> Z.min (fr_height f) (top f c (y + 1)) <= n.
(** The images have the same bytes in the first [n] rows. *)
Definition same_rows (c : ctype) (data1 data2 : list Z) (w n : Z) : Prop :=
  forall y x k, 0 <= y < n -> 0 <= x < w -> 0 <= k < spec_bpp c -> pixel_byte data1 w (spec_bpp c) y x k = pixel_byte data2 w (spec_bpp c) y x k.
Definition same_plane_rows (color : jcolor) (pl1 pl2 : planes) (w n : Z) : Prop :=
  forall ci y x, Z.of_nat ci < num_components color -> 0 <= y < n -> 0 <= x < w -> pl1 ci y x = pl2 ci y x.
(** The number of restart intervals that are over when the [k]-th MCU is coded. *)
Definition over (ri : Z) (k : nat) : nat := if ri =? 0 then 0%nat else ((k - 1) / Z.to_nat ri)%nat.
(** Restart intervals with a marker after each of them. *)
Fixpoint closed_intervals (m : Z) (ds : list (list Z)) : list Z :=
  match ds with
  | [] => []
  | d :: rest => stuffed d ++ [255; 208 + m mod 8] ++ closed_intervals (m + 1) rest
  end.
(** Both files consist of the same segments, the same header of the first scan, the same restart intervals that are over
    after the first [k] MCUs, the same bytes [data] with the codes of those of the [k] MCUs that come after them (except
    for the last few bits, less than a byte, that share a byte with the next MCU), and a rest. *)
Definition same_start (T : transform) (s : settings) (color : jcolor) (pl : planes) (w h : Z) (si : scan_info) (k : nat) (bytes1 bytes2 : list Z) : Prop :=
  let f := frame_for s color w h in
  let codes mcus := encode_units (comp_table f (tb_dc annexK_tables)) (comp_table f (tb_ac annexK_tables)) (si_ss si) (si_se si)
                                 (coefficients_of T s color pl w h) (fun _ => 0) (concat mcus) in
  let n := over (s_restart s) k in
  exists segments header data left rest1 rest2,
    (forall p, In p segments -> exists m d, p = Segment m d) /\
    (let start := [255; 216] ++ flat_map render segments ++ [255; 218] ++ length_field header ++ header ++
                  closed_intervals 0 (map (fun mcus => pack (codes mcus)) (firstn n (intervals (s_restart s) (mcus_of f si)))) ++ stuffed data in
     bytes1 = start ++ rest1 /\ bytes2 = start ++ rest2) /\
    bits_of_bytes data ++ left = codes (skipn (n * Z.to_nat (s_restart s)) (firstn k (mcus_of f si))) /\
    (length left < 8)%nat.
