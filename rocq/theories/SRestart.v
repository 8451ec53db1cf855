(** Optimized Huffman tables and restart intervals: which DC categories the tables know and which ones are
    written.  Specification only. *)
From Coq Require Import ZArith List Bool.
From Verif Require Import T81 SFile SSize.
From Verif Require Import MImage MApi.
Import ListNotations.
Open Scope Z_scope.

(** The categories (Table F.1) of the differences of successive DC coefficients, from a prediction of 0. *)
Fixpoint dc_categories (pred : Z) (values : list Z) : list Z :=
  match values with [] => [] | v :: rest => category (v - pred) :: dc_categories v rest end.
Definition dc_values (cf : coefficients) (us : list unit_pos) : list Z := map (fun '(ci, y, x) => cf ci y x 0) us.

(** The DC scan of one component. *)
Definition component_scan (ci : nat) : scan_info := {| si_comps := [ci]; si_ss := 0; si_se := 0 |}.
(** The prediction never reset: what the statistics of a table are made of ... *)
Definition counted_categories (cf : coefficients) (f : frame) (ci : nat) : list Z :=
  dc_categories 0 (dc_values cf (concat (mcus_of f (component_scan ci)))).
(** ... and reset after every restart interval, as T.81 demands. *)
Definition written_categories (cf : coefficients) (f : frame) (ri : Z) (ci : nat) : list Z :=
  flat_map (fun mcus => dc_categories 0 (dc_values cf (concat mcus))) (intervals ri (mcus_of f (component_scan ci))).

(** Every category that is written has been counted, for this component or one that shares its table. *)
Definition restart_covered (T : transform) (s : settings) (color : jcolor) (pl : planes) (w h : Z) : Prop :=
  let f := frame_for s color w h in
  let cf := coefficients_of T s color pl w h in
  forall ci c k, nth_error (fr_comps f) ci = Some c -> In k (written_categories cf f (s_restart s) ci) ->
    exists cj c', nth_error (fr_comps f) cj = Some c' /\ co_tq c' = co_tq c /\ In k (counted_categories cf f cj).
