(** The part of a file that is settled once the first rows of the image are known, whatever its height (C78).  Specification only. *)
From Coq Require Import ZArith List Bool.
From Verif Require Import T81 SFile SImage SApi SLocal SSize SStart.
Import ListNotations.
Open Scope Z_scope.

(** The first [k] MCUs of a scan cover rows above the [n]-th one only. *)
Definition within_rows (f : frame) (si : scan_info) (k : nat) (n : Z) : Prop :=
  forall ci y x c, In (ci, y, x) (first_units f si k) -> nth_error (fr_comps f) ci = Some c -> top f c (y + 1) <= n.
(** The scan has the same first [k] MCUs in images of both heights. *)
Definition same_first_mcus (f1 f2 : frame) (si : scan_info) (k : nat) : Prop :=
  (1 <= k <= length (mcus_of f1 si))%nat /\ (1 <= k <= length (mcus_of f2 si))%nat /\ firstn k (mcus_of f1 si) = firstn k (mcus_of f2 si).
(** The rows of pixels that a row of MCUs of the scan covers, and the number of its MCUs. *)
Definition mcu_rows (f : frame) (si : scan_info) : Z :=
  match flat_map (fun ci => match nth_error (fr_comps f) ci with Some c => [c] | None => [] end) (si_comps si) with
  | [c] => 8 * step_y f c
  | _ => 8 * vmax f
  end.
Definition mcu_columns (f : frame) (si : scan_info) : Z :=
  match flat_map (fun ci => match nth_error (fr_comps f) ci with Some c => [c] | None => [] end) (si_comps si) with
  | [c] => blocks_wide f c
  | _ => mcus_wide f
  end.
(** The files of two images of heights [h1] and [h2]: the same segments, except for the height in the frame header
    (marker 192 or 194); the same header of the first scan, the same restart intervals that are over after the first [k]
    MCUs, the same bytes [data] with the codes of those of the [k] MCUs that come after them (except for the last few
    bits, less than a byte, that share a byte with the next MCU), and a rest. *)
Definition same_start_heights (T : transform) (s : settings) (color : jcolor) (pl : planes) (w h1 h2 : Z) (si : scan_info) (k : nat) (bytes1 bytes2 : list Z) : Prop :=
  let f := frame_for s color w h1 in
  let codes mcus := encode_units (comp_table f (tb_dc annexK_tables)) (comp_table f (tb_ac annexK_tables)) (si_ss si) (si_se si)
                                 (coefficients_of T s color pl w h1) (fun _ => 0) (concat mcus) in
  let n := over (s_restart s) k in
  exists before m rest after header data left rest1 rest2,
    (forall p, In p (before ++ after) -> exists m d, p = Segment m d) /\ (m = 192 \/ m = 194) /\
    (let start h := [255; 216] ++ flat_map render before ++ render (Segment m (8 :: u16_bytes h ++ rest)) ++ flat_map render after ++
                    [255; 218] ++ length_field header ++ header ++
                    closed_intervals 0 (map (fun mcus => pack (codes mcus)) (firstn n (intervals (s_restart s) (mcus_of f si)))) ++ stuffed data in
     bytes1 = start h1 ++ rest1 /\ bytes2 = start h2 ++ rest2) /\
    bits_of_bytes data ++ left = codes (skipn (n * Z.to_nat (s_restart s)) (firstn k (mcus_of f si))) /\
    (length left < 8)%nat.

(** The entropy-coded data of a scan in both files: the same restart intervals that are over after the first [k] MCUs,
    then an interval that begins with the same bytes [data]. *)
Definition same_scan_start (T : transform) (s : settings) (color : jcolor) (pl : planes) (w h : Z) (si : scan_info) (k : nat) (ds1 ds2 : list (list Z)) : Prop :=
  let f := frame_for s color w h in
  let codes mcus := encode_units (comp_table f (tb_dc annexK_tables)) (comp_table f (tb_ac annexK_tables)) (si_ss si) (si_se si)
                                 (coefficients_of T s color pl w h) (fun _ => 0) (concat mcus) in
  let n := over (s_restart s) k in
  exists data left x1 x2 more1 more2,
    ds1 = map (fun mcus => pack (codes mcus)) (firstn n (intervals (s_restart s) (mcus_of f si))) ++ (data ++ x1) :: more1 /\
    ds2 = map (fun mcus => pack (codes mcus)) (firstn n (intervals (s_restart s) (mcus_of f si))) ++ (data ++ x2) :: more2 /\
    bits_of_bytes data ++ left = codes (skipn (n * Z.to_nat (s_restart s)) (firstn k (mcus_of f si))) /\
    (length left < 8)%nat.
(** Both files: the same segments, except for the height in the frame header, and the same scans, each of them with the
    same start of its data: as far as the first [n] rows go. *)
Definition same_scan_starts (T : transform) (s : settings) (color : jcolor) (pl : planes) (w h1 h2 n : Z) (bytes1 bytes2 : list Z) : Prop :=
  exists before m rest after header ds1 ds2,
    (forall p, In p (before ++ after) -> exists m d, p = Segment m d) /\ (m = 192 \/ m = 194) /\
    (let file h ds := render_file (before ++ [Segment m (8 :: u16_bytes h ++ rest)] ++ after ++ map (fun si => Scan (header si) (ds si)) (scan_script s color)) in
     bytes1 = file h1 ds1 /\ bytes2 = file h2 ds2) /\
    forall si k, In si (scan_script s color) -> same_first_mcus (frame_for s color w h1) (frame_for s color w h2) si k -> within_rows (frame_for s color w h1) si k n ->
      same_scan_start T s color pl w h1 si k (ds1 si) (ds2 si).
