(** Which images and configurations a JPEG file as this encoder writes it can represent (C46).
    Specification only. *)
From Coq Require Import ZArith List Bool.
From Verif Require Import T81 MImage MApi SApi SRestart.
Import ListNotations.
Open Scope Z_scope.

(** Entries of quantization tables are stored as single bytes, of which none may be 0 (B.2.4.1).  Both tables
    are written, also for greyscale images, which use the first one only. *)
Definition quantizers_fit (s : settings) (color : jcolor) : Prop :=
  (forall c i, In c (comps_of (s_sampling s) color) -> 0 <= i < 64 -> quantizer s (co_tq c) i <= 255) /\
  (forall i, 0 <= i < 64 -> quantizer s 1 i mod 256 <> 0).
(** No scan with an empty band of coefficients (see C28). *)
Definition scans_fit (s : settings) : Prop :=
  match s_scans s with Some n => n <= 33 | None => True end.

Definition representable (T : transform) (s : settings) (color : jcolor) (pl : planes) (w h : Z) : Prop :=
  quantizers_fit s color /\ scans_fit s /\ (s_optimize s = true -> restart_covered T s color pl w h).
