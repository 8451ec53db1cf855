(** What the first scans of a file give (C48).  Specification only. *)
From Coq Require Import ZArith List Bool.
From Verif Require Import T81 MImage MApi SApi.
Import ListNotations.
Open Scope Z_scope.

(** Scan [si] has coefficient [k] (zig-zag) of the blocks of component [ci]. *)
Definition carries (ci : nat) (k : Z) (si : scan_info) : Prop := In ci (si_comps si) /\ si_ss si <= k <= si_se si.

(** The decoder's result [j] is this image with these settings, as far as the first [n] scans have it: of
    the coefficients in these scans the exact values, and nothing about the others. *)
Record preview_with (T : transform) (s : settings) (color : jcolor) (w h : Z) (pl : planes) (n : nat) (j : jpeg) : Prop := {
  pv_frame : j_frame j = frame_for s color w h;
  pv_apps : j_app j = apps_for s color;
  pv_restart : j_ri j = s_restart s;
  pv_scans : j_scans j = firstn n (scan_script s color);
  pv_quant : forall ci c, nth_error (comps_of (s_sampling s) color) ci = Some c ->
    quant j ci = Some (map (fun '(v, u) => quantizer s (co_tq c) (Z.of_nat (8 * v + u))) zigzag);
  pv_coef : forall ci c by_ bx k, nth_error (comps_of (s_sampling s) color) ci = Some c ->
    0 <= by_ < blocks_high (j_frame j) c -> 0 <= bx < blocks_wide (j_frame j) c -> 0 <= k < 64 ->
    Exists (carries ci k) (firstn n (scan_script s color)) ->
    coef j ci by_ bx k = Some (expected T s color pl w h ci c by_ bx k);
  pv_missing : forall ci by_ bx k, ~ Exists (carries ci k) (firstn n (scan_script s color)) -> coef j ci by_ bx k = None
}.

(** The file [bytes] is a header and these scans, each starting with an SOS marker, then the EOI marker. *)
Definition scans_at (bytes header : list Z) (scans : list (list Z)) : Prop :=
  bytes = header ++ concat scans ++ [255; 217] /\ Forall (fun sc => exists rest, sc = 255 :: 218 :: rest) scans.
