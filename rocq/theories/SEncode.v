(** A reference encoder, written from ITU-T T.81 (Annexes B, C, F.1, G.1) without looking at how the
    program does it: no bit buffer, no lookup tables, no restart counters.  Specification only; from
    the model it takes the types of the public API (through SApi.v). *)
From Coq Require Import ZArith List Bool.
From Verif Require Import T81 SFile.
From Verif Require Import MImage MQuant MWriter MEncoder MApi.
From Verif Require Export SApi.
Import ListNotations.
Open Scope Z_scope.

(** ** Entropy coding *)
(** The code word of a symbol. *)
Definition code (t : table) (sym : Z) : list bool :=
  match find (fun e => snd e =? sym) t with Some (c, _) => c | None => [] end.
(** Number of bits of the magnitude (Table F.1), and the additional bits (F.1.2.1, F.1.2.2): the low
    order bits of the value, of the value minus one when it is negative. *)
Definition category (v : Z) : Z := if v =? 0 then 0 else Z.log2 (Z.abs v) + 1.
Definition extra (v : Z) : list bool := bits_of (Z.to_nat (category v)) (if v <? 0 then v - 1 else v).

Definition encode_dc (t : table) (pred v : Z) : list bool := code t (category (v - pred)) ++ extra (v - pred).
(** AC coefficients after [run] zeros: ZRL for every sixteen zeros, EOB when only zeros are left. *)
Fixpoint encode_ac (t : table) (run : Z) (vals : list Z) : list bool :=
  match vals with
  | [] => if 0 <? run then code t 0x00 else []
  | v :: rest =>
    if v =? 0 then encode_ac t (run + 1) rest
    else concat (repeat (code t 0xF0) (Z.to_nat (run / 16))) ++
         code t (16 * (run mod 16) + category v) ++ extra v ++ encode_ac t 0 rest
  end.

(** Coefficients ss .. se (zig-zag) of a sequence of data units: [cf] gives coefficient k of the block
    in row y and column x of a component, [pred] the DC coefficient of the last block of a component. *)
Definition coefficients := nat -> Z -> Z -> Z -> Z.
Definition band (a b : Z) : list Z := map (fun i => a + i) (upto (b - a + 1)).
Fixpoint encode_units (dc ac : nat -> table) (ss se : Z) (cf : coefficients) (pred : nat -> Z)
  (us : list unit_pos) : list bool :=
  match us with
  | [] => []
  | (ci, y, x) :: rest =>
    (if ss =? 0 then encode_dc (dc ci) (pred ci) (cf ci y x 0) else []) ++
    encode_ac (ac ci) 0 (map (cf ci y x) (band (Z.max 1 ss) se)) ++
    encode_units dc ac ss se cf (fun i => if (i =? ci)%nat then cf ci y x 0 else pred i) rest
  end.

(** Bits to bytes, the last byte filled with ones (F.1.2.3). *)
Definition fill (bits : list bool) : list bool :=
  bits ++ repeat true (Z.to_nat (- Z.of_nat (length bits) mod 8)).
Definition pack (bits : list bool) : list Z :=
  let bits := fill bits in map value_of (group (length bits) 8 bits).

(** ** Segments *)
(** A Huffman table: the number of codes of each length, and the symbols. *)
Definition huff := (list Z * list Z)%type.
Definition table_of (h : huff) : table := match build_table (fst h) (snd h) with Some t => t | None => [] end.
(** DC and AC tables by destination. *)
Record tables := { tb_dc : Z -> huff; tb_ac : Z -> huff }.
Definition annexK_tables : tables :=
  {| tb_dc d := if d =? 0 then (annexK_luma_dc_bits, annexK_luma_dc_vals) else (annexK_chroma_dc_bits, annexK_chroma_dc_vals);
     tb_ac d := if d =? 0 then (annexK_luma_ac_bits, annexK_luma_ac_vals) else (annexK_chroma_ac_bits, annexK_chroma_ac_vals) |}.

Definition sof (f : frame) : part :=
  Segment (if fr_progressive f then 194 else 192)
    (8 :: u16_bytes (fr_height f) ++ u16_bytes (fr_width f) ++ [Z.of_nat (length (fr_comps f))] ++
     flat_map (fun c => [co_id c; 16 * co_h c + co_v c; co_tq c]) (fr_comps f)).
(** 8-bit entries: of a quantizer above 255 only the low byte is stored. *)
Definition dqt (s : settings) (dest : Z) : part :=
  Segment 219 (dest :: map (fun '(v, u) => quantizer s dest (Z.of_nat (8 * v + u)) mod 256) zigzag).
Definition dht (class dest : Z) (h : huff) : part := Segment 196 ((16 * class + dest) :: fst h ++ snd h).
Definition dri (ri : Z) : list part := if ri =? 0 then [] else [Segment 221 (u16_bytes ri)].

(** The component that uses quantization table t uses Huffman tables t. *)
Definition scan_header (f : frame) (si : scan_info) : list Z :=
  [Z.of_nat (length (si_comps si))] ++
  flat_map (fun ci => match nth_error (fr_comps f) ci with
                      | Some c => [co_id c; 16 * co_tq c + co_tq c]
                      | None => []
                      end) (si_comps si) ++
  [si_ss si; si_se si; 0].
Definition comp_table (f : frame) (t : Z -> huff) (ci : nat) : table :=
  match nth_error (fr_comps f) ci with Some c => table_of (t (co_tq c)) | None => [] end.
Definition scan_data (t : tables) (f : frame) (ri : Z) (cf : coefficients) (si : scan_info) : list (list Z) :=
  map (fun mcus => pack (encode_units (comp_table f (tb_dc t)) (comp_table f (tb_ac t)) (si_ss si) (si_se si)
                                      cf (fun _ => 0) (concat mcus)))
      (intervals ri (mcus_of f si)).

(** ** The file *)
Definition file_parts (t : tables) (s : settings) (f : frame) (color : jcolor) (cf : coefficients) : list part :=
  map (fun '(nr, data) => Segment (224 + nr) data) (apps_for s color) ++
  [sof f; dqt s 0; dqt s 1; dht 0 0 (tb_dc t 0); dht 1 0 (tb_ac t 0)] ++
  (if (3 <=? length (fr_comps f))%nat then [dht 0 1 (tb_dc t 1); dht 1 1 (tb_ac t 1)] else []) ++
  dri (s_restart s) ++
  map (fun si => Scan (scan_header f si) (scan_data t f (s_restart s) cf si)) (scan_script s color).

Definition jpeg_file_with (T : transform) (t : tables) (s : settings) (color : jcolor) (pl : planes) (w h : Z) : list Z :=
  let f := frame_for s color w h in
  render_file (file_parts t s f color
    (fun ci y x k => match nth_error (fr_comps f) ci with
                     | Some c => expected T s color pl w h ci c y x k
                     | None => 0
                     end)).
Definition jpeg_file := jpeg_file_with int_dct.
