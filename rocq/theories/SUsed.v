(** Which symbols the Huffman tables of a file hold.  Specification only. *)
From Coq Require Import ZArith List Bool.
From Verif Require Import T81 SFile SEncode SSize SHuff SRestart SApi.
From Verif Require Import MImage MApi.
Import ListNotations.
Open Scope Z_scope.

(** The symbols that T.81 knows for baseline and 8-bit progressive spectral selection (Tables F.1, F.2, F.6): categories
    0..11 for DC; for AC the end of block, the run of 16 zeros, and (run 0..15, category 1..10). *)
Definition dc_symbol (v : Z) : Prop := 0 <= v <= 11.
Definition ac_symbol (v : Z) : Prop := v = 0x00 \/ v = 0xF0 \/ exists run cat, 0 <= run <= 15 /\ 1 <= cat <= 10 /\ v = 16 * run + cat.

(** An AC symbol of some unit of a component whose table is [d]. *)
Definition ac_occurs (cf : coefficients) (f : frame) (script : list scan_info) (d v : Z) : Prop :=
  exists si ci c y x, In si script /\ In (ci, y, x) (concat (mcus_of f si)) /\ nth_error (fr_comps f) ci = Some c /\ co_tq c = d /\
    In v (ac_symbols 0 (map (cf ci y x) (band (Z.max 1 (si_ss si)) (si_se si)))).
(** A DC category of some unit of a component whose table is [d], the prediction never being reset. *)
Definition dc_counted (cf : coefficients) (f : frame) (d v : Z) : Prop :=
  exists ci c, nth_error (fr_comps f) ci = Some c /\ co_tq c = d /\ In v (counted_categories cf f ci).
(** The same with the prediction reset after each restart interval, as the file is written. *)
Definition dc_occurs (cf : coefficients) (f : frame) (ri d v : Z) : Prop :=
  exists ci c, nth_error (fr_comps f) ci = Some c /\ co_tq c = d /\ In v (written_categories cf f ri ci).

(** Tables with each symbol at most once, and only those that T.81 knows. *)
Definition proper (t : tables) (f : frame) : Prop := forall d, In d (destinations f) ->
  NoDup (snd (tb_dc t d)) /\ NoDup (snd (tb_ac t d)) /\ Forall dc_symbol (snd (tb_dc t d)) /\ Forall ac_symbol (snd (tb_ac t d)).
(** The tables [t] of a file: proper, with at most 12 and 162 symbols; the standard ones, or those with exactly the
    symbols of this image. *)
Definition symbols_exact (T : transform) (t : tables) (s : settings) (color : jcolor) (pl : planes) (w h : Z) : Prop :=
  let f := frame_for s color w h in let cf := coefficients_of T s color pl w h in
  proper t f /\
  (forall d, In d (destinations f) -> (length (snd (tb_dc t d)) <= 12 /\ length (snd (tb_ac t d)) <= 162)%nat) /\
  (s_optimize s = false -> t = annexK_tables) /\
  (s_optimize s = true -> forall d, In d (destinations f) ->
    (forall v, In v (snd (tb_ac t d)) <-> ac_occurs cf f (scan_script s color) d v) /\
    (forall v, In v (snd (tb_dc t d)) <-> dc_counted cf f d v) /\
    (no_restarts s color w h -> forall v, In v (snd (tb_dc t d)) <-> dc_occurs cf f (s_restart s) d v)).
