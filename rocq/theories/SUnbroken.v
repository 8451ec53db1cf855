(** Two files that differ in the restart interval (C74).  Specification only. *)
From Coq Require Import ZArith List.
From Verif Require Import T81 SFile SEncode.
Import ListNotations.
Open Scope Z_scope.

(** Two configurations that differ at most in the restart interval. *)
Definition same_but_restart (s s' : settings) : Prop :=
  s' = {| s_quality := s_quality s; s_density := s_density s; s_sampling := s_sampling s; s_luma := s_luma s; s_chroma := s_chroma s;
          s_scans := s_scans s; s_restart := s_restart s'; s_optimize := s_optimize s; s_segments := s_segments s |}.
(** No scan is interrupted: there is no restart interval, or no scan has more MCUs. *)
Definition unbroken (s : settings) (color : jcolor) (w h : Z) : Prop :=
  s_restart s = 0 \/
  forall si, In si (scan_script s color) -> Z.of_nat (length (mcus_of (frame_for s color w h) si)) <= s_restart s.
(** The bytes of the DRI segment: none without a restart interval. *)
Definition dri_bytes (ri : Z) : list Z := if ri =? 0 then [] else [255; 221; 0; 4; ri / 256; ri mod 256].
(** What comes before and after the DRI segment: SOI, the application segments, the frame and all tables are the same; if
    no scan is interrupted, so are the scans. *)
Definition differ_in_restart (s s' : settings) (color : jcolor) (w h : Z) (bytes bytes' : list Z) : Prop :=
  exists head scans scans', bytes = head ++ dri_bytes (s_restart s) ++ scans /\ bytes' = head ++ dri_bytes (s_restart s') ++ scans' /\
    firstn 2 scans = [255; 218] /\ firstn 2 scans' = [255; 218] /\
    (unbroken s color w h -> unbroken s' color w h -> scans' = scans).
