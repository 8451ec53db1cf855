(** How many bytes a file takes at most: a bound that depends on the dimensions, the colour model, the sampling
    factors, the restart interval, the scans and the caller's APP segments, not on the samples.  Specification only. *)
From Coq Require Import ZArith List Bool.
From Verif Require Import T81 SFile.
From Verif Require Import MImage MApi.
From Verif Require Export SEncode.
Import ListNotations.
Open Scope Z_scope.

(** The data units of a scan: those of its only component, or those of all MCUs (the blocks that complete the last
    MCUs are counted). *)
Definition scan_units (f : frame) (si : scan_info) : Z :=
  match si_comps si with
  | [ci] => match nth_error (fr_comps f) ci with Some c => blocks_wide f c * blocks_high f c | None => 0 end
  | cis => mcus_wide f * mcus_high f *
           fold_right Z.add 0 (map (fun ci => match nth_error (fr_comps f) ci with Some c => co_h c * co_v c | None => 0 end) cis)
  end.
(** A DC difference takes at most a code word of 16 bits and 11 more, an AC coefficient 16 and 10. *)
Definition unit_bits (si : scan_info) : Z :=
  (if si_ss si =? 0 then 27 else 0) + 26 * Z.max 0 (si_se si - Z.max 1 (si_ss si) + 1).
(** A scan: its header; the data, filled up to a byte in every restart interval, each byte perhaps stuffed; and the
    RST markers between the intervals. *)
Definition max_scan (f : frame) (ri : Z) (si : scan_info) : Z :=
  let n := interval_count ri (mcu_count f si) in
  8 + 2 * Z.of_nat (length (si_comps si)) + 2 * ((unit_bits si * scan_units f si + 7 * n) / 8) + 2 * (n - 1).
(** What comes before the scans: SOI, APPn, SOF, two DQT, two or four DHT, perhaps DRI. *)
Definition max_header (s : settings) (color : jcolor) : Z :=
  let n := Z.of_nat (length (comps_of (s_sampling s) color)) in
  2 + fold_right Z.add 0 (map (fun a => 4 + Z.of_nat (length (snd a))) (apps_for s color)) + (10 + 3 * n) + 2 * 69 +
  (if 3 <=? n then 4 else 2) * (4 + 1 + 16 + 256) + (if s_restart s =? 0 then 0 else 6).
Definition max_size (s : settings) (color : jcolor) (w h : Z) : Z :=
  max_header s color + fold_right Z.add 0 (map (max_scan (frame_for s color w h) (s_restart s)) (scan_script s color)) + 2.

(** The blocks of an image, with those that complete the last MCUs. *)
Definition padded_blocks (f : frame) : Z :=
  mcus_wide f * mcus_high f * fold_right Z.add 0 (map (fun c => co_h c * co_v c) (fr_comps f)).
