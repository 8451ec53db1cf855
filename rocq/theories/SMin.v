(** How many bytes a file with the standard Huffman tables takes at least, whatever the samples (property C71).
    Specification only. *)
From Coq Require Import ZArith List Bool.
From Verif Require Import T81 SFile.
From Verif Require Import MImage MApi.
From Verif Require Export SEncode.
Import ListNotations.
Open Scope Z_scope.

(** [n] AC coefficients of a data unit with the AC table 0 or 1 of Annex K: end of block takes 4 or 2 bits; only a single
    coefficient with table 0 takes less when it is not zero: 2 bits for the code word and one more. *)
Definition least_ac (table n : Z) : Z :=
  if n <=? 0 then 0 else if table =? 0 then (if n =? 1 then 3 else 4) else 2.
(** A data unit: the DC difference, if it is in the scan, takes 2 bits. *)
Definition least_unit (f : frame) (si : scan_info) (u : unit_pos) : Z :=
  let '(ci, _, _) := u in
  (if si_ss si =? 0 then 2 else 0) +
  least_ac (match nth_error (fr_comps f) ci with Some c => co_tq c | None => 1 end) (si_se si - Z.max 1 (si_ss si) + 1).
Definition sum_all (l : list Z) : Z := fold_right Z.add 0 l.
(** A restart interval, filled up to a byte. *)
Definition least_interval (f : frame) (si : scan_info) (mcus : list (list unit_pos)) : Z :=
  cdiv (sum_all (map (least_unit f si) (concat mcus))) 8.
(** A scan: the header, the data and the RST markers between the intervals. *)
Definition least_scan (f : frame) (ri : Z) (si : scan_info) : Z :=
  let ints := intervals ri (mcus_of f si) in
  8 + 2 * Z.of_nat (length (si_comps si)) + sum_all (map (least_interval f si) ints) + 2 * (Z.of_nat (length ints) - 1).
(** What comes before the scans: SOI, APPn, SOF, two DQT, two or four DHT (12 and 162 symbols), perhaps DRI. *)
Definition std_header (s : settings) (color : jcolor) : Z :=
  let n := Z.of_nat (length (comps_of (s_sampling s) color)) in
  2 + sum_all (map (fun a => 4 + Z.of_nat (length (snd a))) (apps_for s color)) + (10 + 3 * n) + 2 * 69 +
  (if 3 <=? n then 2 else 1) * ((4 + 1 + 16 + 12) + (4 + 1 + 16 + 162)) + (if s_restart s =? 0 then 0 else 6).
Definition min_size (s : settings) (color : jcolor) (w h : Z) : Z :=
  std_header s color + sum_all (map (least_scan (frame_for s color w h) (s_restart s)) (scan_script s color)) + 2.

(** All samples of the [n] components have the middle value. *)
Definition mid_grey (n : nat) (pl : planes) (w h : Z) : Prop :=
  forall ci y x, (ci < n)%nat -> 0 <= y < h -> 0 <= x < w -> pl ci y x = 128.
(** No scan has a single AC coefficient. *)
Definition wide_bands (s : settings) : Prop := match s_scans s with Some n => n <= 22 | None => True end.
