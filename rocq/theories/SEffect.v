(** Specification: configurations that ask for the same thing (property C66). *)
From Verif Require Import Rust T81 SApi MImage MQuant MWriter MEncoder.
From Coq Require Import ZArith List.
Import ListNotations.
Open Scope Z_scope.

(** Both quantization tables have the same 64 entries, however they were chosen (by which preset, quality or custom
    table), and every other setting but the sampling factor is the same. *)
Record same_request (s s' : settings) : Prop := {
  sr_tables : forall d i, 0 <= d <= 1 -> 0 <= i < 64 -> quantizer s' d i = quantizer s d i;
  sr_density : s_density s' = s_density s;
  sr_segments : s_segments s' = s_segments s;
  sr_scans : s_scans s' = s_scans s;
  sr_restart : s_restart s' = s_restart s;
  sr_optimize : s_optimize s' = s_optimize s
}.
