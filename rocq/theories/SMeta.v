(** Specification: the metadata of a file (property C62). *)
From Verif Require Import Rust T81 SFile SApi MImage MQuant MWriter MEncoder.
From Coq Require Import ZArith List.
Import ListNotations.
Open Scope Z_scope.

(** Two configurations that differ at most in the density and the application segments. *)
Record same_but_metadata (s s' : settings) : Prop := {
  sm_quality : s_quality s' = s_quality s;
  sm_sampling : s_sampling s' = s_sampling s;
  sm_luma : s_luma s' = s_luma s;
  sm_chroma : s_chroma s' = s_chroma s;
  sm_scans : s_scans s' = s_scans s;
  sm_restart : s_restart s' = s_restart s;
  sm_optimize : s_optimize s' = s_optimize s
}.
(** The bytes of the application segments: JFIF, Adobe (for four components), the caller's. *)
Definition metadata (s : settings) (color : jcolor) : list Z :=
  flat_map (fun '(nr, d) => render (Segment (224 + nr) d)) (apps_for s color).
(** Both runs give the same outcome, and outputs that differ in the metadata only. *)
Definition differ_in_metadata (s s' : settings) (color : jcolor) {A} (run run' : list Z * outcome A) : Prop :=
  snd run' = snd run /\
  exists image, fst run = [255; 216] ++ metadata s color ++ image /\ fst run' = [255; 216] ++ metadata s' color ++ image.
