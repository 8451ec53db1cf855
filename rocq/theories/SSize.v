(** How many bits the entropy-coded data of an image takes with given Huffman tables.  Specification only. *)
From Coq Require Import ZArith List Bool.
From Verif Require Import T81 SFile SHuff.
From Verif Require Import MImage MApi.
From Verif Require Export SEncode.
Import ListNotations.
Open Scope Z_scope.

(** The length of what the reference encoder writes into a scan, before padding and byte stuffing. *)
Definition scan_bits (t : tables) (f : frame) (ri : Z) (cf : coefficients) (si : scan_info) : Z :=
  fold_right Z.add 0
    (map (fun mcus => Z.of_nat (length (encode_units (comp_table f (tb_dc t)) (comp_table f (tb_ac t)) (si_ss si) (si_se si)
                                                     cf (fun _ => 0) (concat mcus))))
         (intervals ri (mcus_of f si))).
Definition coefficients_of (T : transform) (s : settings) (color : jcolor) (pl : planes) (w h : Z) : coefficients :=
  fun ci y x k => match nth_error (fr_comps (frame_for s color w h)) ci with
                  | Some c => expected T s color pl w h ci c y x k
                  | None => 0
                  end.
Definition entropy_bits (T : transform) (t : tables) (s : settings) (color : jcolor) (pl : planes) (w h : Z) : Z :=
  fold_right Z.add 0 (map (scan_bits t (frame_for s color w h) (s_restart s) (coefficients_of T s color pl w h))
                          (scan_script s color)).

(** The symbols of a scan: component, class (0 DC, 1 AC), symbol (F.1.2, G.1.2). *)
Fixpoint ac_symbols (run : Z) (vals : list Z) : list Z :=
  match vals with
  | [] => if 0 <? run then [0x00] else []
  | v :: rest =>
    if v =? 0 then ac_symbols (run + 1) rest
    else repeat 0xF0 (Z.to_nat (run / 16)) ++ (16 * (run mod 16) + category v) :: ac_symbols 0 rest
  end.
Fixpoint unit_symbols (ss se : Z) (cf : coefficients) (pred : nat -> Z) (us : list unit_pos) : list (nat * Z * Z) :=
  match us with
  | [] => []
  | (ci, y, x) :: rest =>
    (if ss =? 0 then [(ci, 0, category (cf ci y x 0 - pred ci))] else []) ++
    map (fun sym => (ci, 1, sym)) (ac_symbols 0 (map (cf ci y x) (band (Z.max 1 ss) se))) ++
    unit_symbols ss se cf (fun i => if (i =? ci)%nat then cf ci y x 0 else pred i) rest
  end.
(** Every symbol of the image has a code word. *)
Definition covers (T : transform) (t : tables) (s : settings) (color : jcolor) (pl : planes) (w h : Z) : Prop :=
  let f := frame_for s color w h in
  forall si mcus ci class sym, In si (scan_script s color) -> In mcus (intervals (s_restart s) (mcus_of f si)) ->
    In (ci, class, sym) (unit_symbols (si_ss si) (si_se si) (coefficients_of T s color pl w h) (fun _ => 0) (concat mcus)) ->
    code (comp_table f (if class =? 0 then tb_dc t else tb_ac t) ci) sym <> [].

(** The tables a file holds: one of each class for greyscale, two otherwise. *)
Definition destinations (f : frame) : list Z := if (3 <=? length (fr_comps f))%nat then [0; 1] else [0].
Definition in_use (t : tables) (f : frame) : list huff := flat_map (fun d => [tb_dc t d; tb_ac t d]) (destinations f).
(** A table that a file can hold. *)
Definition storable (h : huff) : Prop :=
  (exists tb, build_table (fst h) (snd h) = Some tb) /\ Forall (fun v => 0 <= v < 256) (snd h).
(** No code of 16 bits. *)
Definition short_codes (h : huff) : Prop := nth 15 (fst h) 0 = 0.
(** The sum of the longest code lengths. *)
Definition longest_codes (t : tables) (f : frame) : Z :=
  fold_right Z.add 0 (map (fun h => longest (table_of h)) (in_use t f)).
