(** Model of src/encoder.rs *)
From Verif Require Export Rust MHuffman MQuant MFdct MImage MWriter.

(** src/encoder.rs:95-135 — SamplingFactor *)
Inductive sampling :=
| F_1_1 | F_2_1 | F_1_2 | F_2_2 | F_4_1 | F_4_2 | F_1_4 | F_2_4
| R_4_4_4 | R_4_4_0 | R_4_4_1 | R_4_2_2 | R_4_2_0 | R_4_2_1 | R_4_1_1 | R_4_1_0.

(** src/encoder.rs:103-134 — the discriminants, [self as u8] *)
Definition sampling_u8 (s : sampling) : Z :=
  match s with
  | F_1_1 => 0x11 | F_2_1 => 0x21 | F_1_2 => 0x12 | F_2_2 => 0x22
  | F_4_1 => 0x41 | F_4_2 => 0x42 | F_1_4 => 0x14 | F_2_4 => 0x24
  | R_4_4_4 => 0x80 + 0x11 | R_4_4_0 => 0x80 + 0x12 | R_4_4_1 => 0x80 + 0x14
  | R_4_2_2 => 0x80 + 0x21 | R_4_2_0 => 0x80 + 0x22 | R_4_2_1 => 0x80 + 0x24
  | R_4_1_1 => 0x80 + 0x41 | R_4_1_0 => 0x80 + 0x42
  end.

(** src/encoder.rs:139-153 — from_factors *)
Definition from_factors (h v : Z) : option sampling :=
  match h, v with
  | 1, 1 => Some F_1_1
  | 1, 2 => Some F_1_2
  | 1, 4 => Some F_1_4
  | 2, 1 => Some F_2_1
  | 2, 2 => Some F_2_2
  | 2, 4 => Some F_2_4
  | 4, 1 => Some F_4_1
  | 4, 2 => Some F_4_2
  | _, _ => None
  end.

(** src/encoder.rs:155-158 — get_sampling_factors *)
Definition sampling_factors (s : sampling) : Z * Z :=
  let value := sampling_u8 s in
  (Z.land (value / 2 ^ 4) 0x07, Z.land value 0xF).

(** src/encoder.rs:160-169 — supports_interleaved *)
Definition supports_interleaved (s : sampling) : bool :=
  match s with
  | F_1_1 | F_2_1 | F_1_2 | F_2_2 | R_4_4_4 | R_4_4_0 | R_4_2_2 | R_4_2_0 => true
  | _ => false
  end.

(** src/encoder.rs:195-217 — struct Encoder (without the writer; the sink is the environment) *)
Record encoder := {
  e_density : density;
  e_quality : Z;
  e_components : list component;
  e_qtypes : list qtype;                 (* [QuantizationTableType; 2] *)
  e_huff : list (htab * htab);           (* [(dc, ac); 2] *)
  e_sampling : sampling;
  e_prog : option Z;
  e_restart : option Z;
  e_optimize : bool;
  e_segments : list (Z * list Z)
}.

(** src/encoder.rs:221-257 — Encoder::new *)
Definition encoder_new (P : platform) (quality : Z) : prog encoder :=
  let* ldc := default_luma_dc P in
  let* lac := default_luma_ac P in
  let* cdc := default_chroma_dc P in
  let* cac := default_chroma_ac P in
  Ret {| e_density := DensityNone;
         e_quality := quality;
         e_components := [];
         e_qtypes := [QDefault; QDefault];
         e_huff := [(ldc, lac); (cdc, cac)];
         e_sampling := if quality <? 90 then F_2_2 else F_1_1;
         e_prog := None;
         e_restart := None;
         e_optimize := false;
         e_segments := [] |}.

(** src/encoder.rs:262-264 — set_density *)
Definition set_density (d : density) (e : encoder) : encoder :=
  {| e_density := d; e_quality := e_quality e; e_components := e_components e;
     e_qtypes := e_qtypes e; e_huff := e_huff e; e_sampling := e_sampling e; e_prog := e_prog e;
     e_restart := e_restart e; e_optimize := e_optimize e; e_segments := e_segments e |}.

(** src/encoder.rs:272-274 — set_sampling_factor *)
Definition set_sampling_factor (s : sampling) (e : encoder) : encoder :=
  {| e_density := e_density e; e_quality := e_quality e; e_components := e_components e;
     e_qtypes := e_qtypes e; e_huff := e_huff e; e_sampling := s; e_prog := e_prog e;
     e_restart := e_restart e; e_optimize := e_optimize e; e_segments := e_segments e |}.

(** src/encoder.rs:282-288 — set_quantization_tables *)
Definition set_quantization_tables (luma chroma : qtype) (e : encoder) : encoder :=
  {| e_density := e_density e; e_quality := e_quality e; e_components := e_components e;
     e_qtypes := [luma; chroma]; e_huff := e_huff e; e_sampling := e_sampling e;
     e_prog := e_prog e; e_restart := e_restart e; e_optimize := e_optimize e;
     e_segments := e_segments e |}.

Definition with_prog (p : option Z) (e : encoder) : encoder :=
  {| e_density := e_density e; e_quality := e_quality e; e_components := e_components e;
     e_qtypes := e_qtypes e; e_huff := e_huff e; e_sampling := e_sampling e; e_prog := p;
     e_restart := e_restart e; e_optimize := e_optimize e; e_segments := e_segments e |}.

(** src/encoder.rs:299-301 — set_progressive *)
Definition set_progressive (b : bool) (e : encoder) : encoder :=
  with_prog (if b then Some 4 else None) e.

(** src/encoder.rs:310-317 — set_progressive_scans *)
Definition set_progressive_scans (scans : Z) (e : encoder) : prog encoder :=
  assert_ ((2 <=? scans) && (scans <=? 64)) ;;; Ret (with_prog (Some scans) e).

(** src/encoder.rs:327-329 — set_restart_interval *)
Definition set_restart_interval (interval : Z) (e : encoder) : encoder :=
  {| e_density := e_density e; e_quality := e_quality e; e_components := e_components e;
     e_qtypes := e_qtypes e; e_huff := e_huff e; e_sampling := e_sampling e; e_prog := e_prog e;
     e_restart := if interval =? 0 then None else Some interval;
     e_optimize := e_optimize e; e_segments := e_segments e |}.

(** src/encoder.rs:339-341 — set_optimized_huffman_tables *)
Definition set_optimized_huffman_tables (b : bool) (e : encoder) : encoder :=
  {| e_density := e_density e; e_quality := e_quality e; e_components := e_components e;
     e_qtypes := e_qtypes e; e_huff := e_huff e; e_sampling := e_sampling e; e_prog := e_prog e;
     e_restart := e_restart e; e_optimize := b; e_segments := e_segments e |}.

Definition with_segments (l : list (Z * list Z)) (e : encoder) : encoder :=
  {| e_density := e_density e; e_quality := e_quality e; e_components := e_components e;
     e_qtypes := e_qtypes e; e_huff := e_huff e; e_sampling := e_sampling e; e_prog := e_prog e;
     e_restart := e_restart e; e_optimize := e_optimize e; e_segments := l |}.

(** src/encoder.rs:356-365 — add_app_segment: the new encoder and the error, if any *)
Definition add_app_segment (nr : Z) (data : list Z) (e : encoder) : encoder * option error :=
  if (nr =? 0) || (15 <? nr) then (e, Some (InvalidAppSegment nr))
  else if 65533 <? zlen data then (e, Some (AppSegmentTooLarge (zlen data)))
  else (with_segments (e_segments e ++ [(nr, data)]) e, None).

(** src/encoder.rs:1212-1214 — ceil_div *)
Definition ceil_div (value div : Z) : Z := value / div + (if value mod div =? 0 then 0 else 1).

(** src/encoder.rs:378-379 — b"ICC_PROFILE\0", MAX_CHUNK_LENGTH *)
Definition ICC_MARKER : list Z :=
  [0x49; 0x43; 0x43; 0x5F; 0x50; 0x52; 0x4F; 0x46; 0x49; 0x4C; 0x45; 0x00].
Definition MAX_CHUNK_LENGTH : Z := 65535 - 2 - 12 - 2.

(** slice::chunks(n): the last chunk may be shorter *)
Definition chunks (n : Z) (l : list Z) : list (list Z) :=
  map (fun i => firstn (Z.to_nat n) (skipn (Z.to_nat (i * n)) l))
      (zrange ((zlen l + n - 1) / n)).

(** src/encoder.rs:390-398 — the loop over the chunks, with early return on error *)
Fixpoint add_icc_loop (P : platform) (cs : list (Z * list Z)) (num_chunks : Z) (e : encoder)
  : prog (encoder * option error) :=
  match cs with
  | [] => Ret (e, None)
  | (i, data) :: cs' =>
    let* nr := ck_u P 8 (wrap_u 8 i + 1) in
    match add_app_segment 2 (ICC_MARKER ++ [nr] ++ [wrap_u 8 num_chunks] ++ data) e with
    | (e', Some err) => Ret (e', Some err)
    | (e', None) => add_icc_loop P cs' num_chunks e'
    end
  end.

(** src/encoder.rs:374-401 — add_icc_profile *)
Definition add_icc_profile (P : platform) (data : list Z) (e : encoder)
  : prog (encoder * option error) :=
  let num_chunks := ceil_div (zlen data) MAX_CHUNK_LENGTH in
  if 255 <=? num_chunks then Ret (e, Some (IccTooLarge (zlen data)))
  else add_icc_loop P (enumerate (chunks MAX_CHUNK_LENGTH data)) num_chunks e.

(** src/encoder.rs:181-192 — add_component! *)
Definition mk_component (id dest h v : Z) : component :=
  {| c_id := id; c_qt := dest; c_dc := dest; c_ac := dest; c_h := h; c_v := v |}.

(** src/encoder.rs:535-585 — init_components pushes these *)
Definition init_components (s : sampling) (color : jcolor) : list component :=
  let '(h, v) := sampling_factors s in
  match color with
  | JLuma => [mk_component 0 0 1 1]
  | JYcbcr => [mk_component 0 0 h v; mk_component 1 1 1 1; mk_component 2 1 1 1]
  | JCmyk => [mk_component 0 1 1 1; mk_component 1 1 1 1; mk_component 2 1 1 1;
              mk_component 3 0 h v]
  | JYcck => [mk_component 0 0 h v; mk_component 1 1 1 1; mk_component 2 1 1 1;
              mk_component 3 0 h v]
  end.

(** src/encoder.rs:587-597 — get_max_sampling_size *)
Definition max_sampling (cs : list component) : Z * Z :=
  (fold_left (fun m c => Z.max m (c_h c)) cs 1, fold_left (fun m c => Z.max m (c_v c)) cs 1).

(** src/encoder.rs:1190-1210 — get_block.  [data[..] as i16 - 128] cannot overflow for u8 data; the
    index is at most the buffer length, whose overflow check is in the callers. *)
Definition get_block (data : list Z) (start_x start_y col_stride row_stride width : Z)
  : prog (list Z) :=
  mapM (fun i =>
          let y := i / 8 in
          let x := i mod 8 in
          let ix := start_x + x * col_stride in
          let iy := start_y + y * row_stride in
          let* d := index data (iy * width + ix) in
          Ret (d - 128)) (zrange 64).

(** src/encoder.rs:1231-1248 — trait Operations: the fdct may be replaced, quantize_block is the
    default one everywhere *)
Record operations := { op_fdct : platform -> list Z -> prog (list Z) }.
Definition default_operations : operations := {| op_fdct := fdct |}.

(** src/encoder.rs:1238-1243 — quantize_block *)
Definition quantize_block (P : platform) (block : list Z) (q : qtable) : prog (list Z) :=
  mapM (fun i => let z := Z.land (zn ZIGZAG i) 0x3f in quantize P q (zn block z) z) (zrange 64).

(** src/encoder.rs:635-660, 1026-1051 — init_rows / init_block_buffers: four empty vectors; the
    capacity is only relevant for the SIMD path, see MAvx2.v *)
Definition init_rows (cs : list component) : prog bufs :=
  match length cs with
  | 1%nat | 3%nat | 4%nat => Ret [[]; []; []; []]
  | _ => Panic PUnreachable
  end.

(** src/encoder.rs:704-710, 971-977 — repeat the last value of each non-empty channel *)
Definition push_last (ch : list Z) : list Z :=
  match ch with [] => [] | _ => ch ++ [last ch 0] end.
Definition pad_row (width buffer_width : Z) (row : bufs) : bufs :=
  fold_left (fun row _ => map push_last row) (zseg width buffer_width) row.

(** Selecting from the two-element arrays huffman_tables and q_tables *)
Definition dc_table (ht : list (htab * htab)) (c : component) : prog htab :=
  let* t := index ht (c_dc c) in Ret (fst t).
Definition ac_table (ht : list (htab * htab)) (c : component) : prog htab :=
  let* t := index ht (c_ac c) in Ret (snd t).

(** src/encoder.rs:761-768 (and 818-825, 879-886, 928-935) — restart bookkeeping after an MCU *)
Definition restart_after (P : platform) (ri restarts to_go : Z) : prog (Z * Z) :=
  if 0 <? ri then
    let '(to_go, restarts) :=
      if to_go =? 0 then (ri, Z.land (restarts + 1) 7) else (to_go, restarts) in
    let* t := ck_u P 16 (to_go - 1) in
    Ret (restarts, t)
  else Ret (restarts, to_go).

(** src/encoder.rs:599-633 — Encoder::write_frame_header *)
Definition enc_write_frame_header (P : platform) (e : encoder) (cs : list component)
  (ht : list (htab * htab)) (im : image) (q0 q1 : qtable) : prog unit :=
  write_frame_header (im_width im) (im_height im) cs
                     (match e_prog e with Some _ => true | None => false end) ;;;
  write_quantization_segment 0 q0 ;;;
  write_quantization_segment 1 q1 ;;;
  let* h0 := index ht 0 in
  write_huffman_segment P class_dc 0 (fst h0) ;;;
  write_huffman_segment P class_ac 0 (snd h0) ;;;
  (if 3 <=? num_components (im_color im) then
     let* h1 := index ht 1 in
     write_huffman_segment P class_dc 1 (fst h1) ;;;
     write_huffman_segment P class_ac 1 (snd h1)
   else Ret tt) ;;;
  match e_restart e with
  | Some ri => write_dri ri
  | None => Ret tt
  end.

(** src/encoder.rs:728-747, 1000-1020 — one quantized block: sampling, DCT, quantization *)
Definition make_block (P : platform) (op : operations) (row : list Z)
  (start_x start_y col_stride row_stride width : Z) (q : qtable) : prog (list Z) :=
  let* block := get_block row start_x start_y col_stride row_stride width in
  let* block := op_fdct op P block in
  quantize_block P block q.

(** src/encoder.rs:698-711, 966-978 — fill the sample rows [ys] and pad each to the buffer
    width *)
Definition fill_rows (im : image) (buffer_width : Z) (ys : list Z) (row : bufs) : prog bufs :=
  foldM (fun row y =>
           let y := Z.min y (im_height im - 1) in
           let* row := im_fill im y row in
           Ret (pad_row (im_width im) buffer_width row)) ys row.

(** src/encoder.rs:725-758 — all blocks of one MCU; state: bit writer and prev_dc *)
Definition write_mcu (P : platform) (op : operations) (cs : list component)
  (ht : list (htab * htab)) (qs : list qtable) (maxh maxv buffer_width : Z) (row : bufs)
  (block_x : Z) (st : bitw * list Z) : prog (bitw * list Z) :=
  foldM (fun st '(i, c) =>
    foldM (fun st v_offset =>
      foldM (fun '(w, prev_dc) h_offset =>
        let* r := index row i in
        let* q := index qs (c_qt c) in
        let* q_block := make_block P op r
                          (block_x * 8 * maxh + h_offset * 8) (v_offset * 8)
                          (maxh / c_h c) (maxv / c_v c) buffer_width q in
        let* dc := dc_table ht c in
        let* ac := ac_table ht c in
        let* prev := index prev_dc i in
        let* w := write_block P w q_block prev dc ac in
        Ret (w, upd prev_dc (Z.to_nat i) (zn q_block 0)))
        (zrange (c_h c)) st)
      (zrange (c_v c)) st)
    (enumerate cs) st.

(** src/encoder.rs:665-775 — encode_image_interleaved *)
Definition encode_image_interleaved (P : platform) (op : operations) (e : encoder)
  (cs : list component) (im : image) (q0 q1 : qtable) (w : bitw) : prog bitw :=
  enc_write_frame_header P e cs (e_huff e) im q0 q1 ;;;
  write_scan_header cs None ;;;
  let '(maxh, maxv) := max_sampling cs in
  let width := im_width im in
  let height := im_height im in
  let num_cols := ceil_div width (8 * maxh) in
  let num_rows := ceil_div height (8 * maxv) in
  let buffer_width := num_cols * 8 * maxh in
  let* _ := ck_usize P (buffer_width * 8 * maxv) in
  let* row0 := init_rows cs in
  let ri := match e_restart e with Some r => r | None => 0 end in
  let* '(w, _, _, _) :=
    foldM (fun st block_y =>
      let* row := fill_rows im buffer_width
                    (map (fun y => y + block_y * 8 * maxv) (zrange (8 * maxv)))
                    (map (fun _ => []) row0) in
      foldM (fun '(w, prev_dc, restarts, to_go) block_x =>
        let* '(w, prev_dc) :=
          (if (0 <? ri) && (to_go =? 0) then
             let* w := finalize_bit_buffer P w in
             write_marker (RST (restarts mod 8)) ;;;
             Ret (w, [0; 0; 0; 0])
           else Ret (w, prev_dc)) in
        let* '(w, prev_dc) := write_mcu P op cs (e_huff e) [q0; q1] maxh maxv buffer_width row
                                        block_x (w, prev_dc) in
        let* '(restarts, to_go) := restart_after P ri restarts to_go in
        Ret (w, prev_dc, restarts, to_go))
        (zrange num_cols) st)
      (zrange num_rows) (w, [0; 0; 0; 0], 0, ri) in
  finalize_bit_buffer P w.

(** src/encoder.rs:945-1024 — encode_blocks.  The [Vec<[i16; 64]>; 4] is modelled as one list of
    blocks per component. *)
Definition encode_blocks (P : platform) (op : operations) (cs : list component) (im : image)
  (q0 q1 : qtable) : prog (list (list (list Z))) :=
  let width := im_width im in
  let height := im_height im in
  let '(maxh, maxv) := max_sampling cs in
  let num_cols := ceil_div width (8 * maxh) * maxh in
  let num_rows := ceil_div height (8 * maxv) * maxv in
  debug_assert P (0 <? num_cols) ;;;
  debug_assert P (0 <? num_rows) ;;;
  let buffer_width := num_cols * 8 in
  let* _ := ck_usize P (num_cols * num_rows * 64) in
  let* row0 := init_rows cs in
  let* row := fill_rows im buffer_width (zrange (num_rows * 8)) row0 in
  let num_cols := ceil_div width 8 in
  let num_rows := ceil_div height 8 in
  debug_assert P (0 <? num_cols) ;;;
  debug_assert P (0 <? num_rows) ;;;
  mapM (fun '(i, c) =>
    let h_scale := maxh / c_h c in
    let v_scale := maxv / c_v c in
    let cols := ceil_div num_cols h_scale in
    let rows := ceil_div num_rows v_scale in
    debug_assert P (0 <? cols) ;;;
    debug_assert P (0 <? rows) ;;;
    let* bs := mapM (fun block_y =>
      mapM (fun block_x =>
        let* r := index row i in
        let* q := index [q0; q1] (c_qt c) in
        make_block P op r (block_x * 8 * h_scale) (block_y * 8 * v_scale)
                   h_scale v_scale buffer_width q)
        (zrange cols))
      (zrange rows) in
    Ret (concat bs)) (enumerate cs).

(** src/encoder.rs:1223-1226 — while value > 0 \{ num_bits += 1; value >>= 1 \} *)
Fixpoint num_bits_loop (fuel : nat) (value num_bits : Z) : Z :=
  match fuel with
  | O => num_bits
  | S fuel' => if 0 <? value then num_bits_loop fuel' (value / 2) (num_bits + 1) else num_bits
  end.

(** src/encoder.rs:1216-1229 — get_num_bits; an i16 has at most 15 value bits *)
Definition get_num_bits (P : platform) (value : Z) : prog Z :=
  let* value := (if value <? 0 then ck_s P 16 (- value) else Ret value) in
  Ret (num_bits_loop 16 value 0).

(** [freq[i] += 1] on [u32; 257] *)
Definition inc_freq (P : platform) (freq : list Z) (i : Z) : prog (list Z) :=
  let* f := index freq i in
  let* f' := ck_u P 32 (f + 1) in
  Ret (upd freq (Z.to_nat i) f').

(** src/encoder.rs:1072-1084 — DC statistics of one component (prev_dc is not reset at restarts) *)
Fixpoint count_dc (P : platform) (blocks : list (list Z)) (prev_dc : Z) (freq : list Z)
  : prog (list Z) :=
  match blocks with
  | [] => Ret freq
  | block :: rest =>
    let value := zn block 0 in
    let* diff := ck_s P 16 (value - prev_dc) in
    let* nb := get_num_bits P diff in
    let* freq := inc_freq P freq nb in
    count_dc P rest value freq
  end.

(** src/encoder.rs:1113-1116, 1139-1142 — while zero_run > 15 \{ ac_freq[0xF0] += 1; .. \} *)
Fixpoint count_zrl (P : platform) (fuel : nat) (zero_run : Z) (freq : list Z)
  : prog (list Z * Z) :=
  match fuel with
  | O => Panic PFuel
  | S fuel' =>
    if 15 <? zero_run then
      let* freq := inc_freq P freq 0xF0 in
      count_zrl P fuel' (zero_run - 16) freq
    else Ret (freq, zero_run)
  end.

(** src/encoder.rs:1109-1124, 1135-1150 — AC statistics of one band of one block *)
Fixpoint count_ac_loop (P : platform) (vals : list Z) (zero_run : Z) (freq : list Z)
  : prog (list Z * Z) :=
  match vals with
  | [] => Ret (freq, zero_run)
  | value :: rest =>
    if value =? 0 then
      let* zr := ck_u P 8 (zero_run + 1) in
      count_ac_loop P rest zr freq
    else
      let* '(freq, zero_run) := count_zrl P 17 zero_run freq in
      let* nb := get_num_bits P value in
      let symbol := Z.lor (wrap_u 8 (zero_run * 2 ^ 4)) nb in
      let* freq := inc_freq P freq symbol in
      count_ac_loop P rest 0 freq
  end.

(** src/encoder.rs:1106-1129, 1132-1155 — statistics of one block *)
Definition count_ac (P : platform) (block : list Z) (start end_ : Z) (freq : list Z)
  : prog (list Z) :=
  if (start <=? end_) && (end_ <=? 64) then
    let* '(freq, zero_run) := count_ac_loop P (slice block start end_) 0 freq in
    if 0 <? zero_run then inc_freq P freq 0 else Ret freq
  else Panic PIndex.

(** src/encoder.rs:1091-1102 — the spectral bands as computed in optimize_huffman_table *)
Definition opt_bands (P : platform) (scans : Z) : prog (list (Z * Z)) :=
  let* scans := ck_usize P (scans - 1) in
  if scans =? 0 then Panic POverflow (* division by zero *)
  else
    let values_per_scan := 64 / scans in
    Ret (map (fun scan =>
                (Z.max (scan * values_per_scan) 1,
                 if scan =? scans - 1 then 64 else (scan + 1) * values_per_scan))
             (zrange scans)).

(** [freq[256] = 1], everything else 0 *)
Definition init_freq : list Z := repeat 0 256 ++ [1].

(** src/encoder.rs:1054-1170 — optimize_huffman_table for one table index *)
Definition optimize_table (P : platform) (e : encoder) (cs : list component)
  (blocks : list (list (list Z))) (table : Z) : prog (htab * htab) :=
  let* '(dc_freq, ac_freq, had_dc, had_ac) :=
    foldM (fun '(dc_freq, ac_freq, had_dc, had_ac) '(i, c) =>
      let* bs := index blocks i in
      let* '(dc_freq, had_dc) :=
        (if c_dc c =? table then
           debug_assert P (negb (length bs =? 0)%nat) ;;;
           let* f := count_dc P bs 0 dc_freq in Ret (f, true)
         else Ret (dc_freq, had_dc)) in
      let* '(ac_freq, had_ac) :=
        (if c_ac c =? table then
           match e_prog e with
           | Some scans =>
             let* bands := opt_bands P scans in
             let* f := foldM (fun freq '(start, end_) =>
                         debug_assert P (negb (length bs =? 0)%nat) ;;;
                         foldM (fun freq block => count_ac P block start end_ freq) bs freq)
                       bands ac_freq in
             Ret (f, true)
           | None =>
             let* f := foldM (fun freq block => count_ac P block 1 64 freq) bs ac_freq in
             Ret (f, true)
           end
         else Ret (ac_freq, had_ac)) in
      Ret (dc_freq, ac_freq, had_dc, had_ac))
      (enumerate cs) (init_freq, init_freq, false, false) in
  assert_ had_dc ;;;
  assert_ had_ac ;;;
  let* dc := new_optimized P dc_freq in
  let* ac := new_optimized P ac_freq in
  Ret (dc, ac).

(** src/encoder.rs:1054-1170 — optimize_huffman_table; tables beyond max_tables keep their old
    value *)
Definition optimize_huffman_table (P : platform) (e : encoder) (cs : list component)
  (blocks : list (list (list Z))) : prog (list (htab * htab)) :=
  let max_tables := Z.min (zlen cs) 2 in
  foldM (fun ht table =>
           let* t := optimize_table P e cs blocks table in
           Ret (upd ht (Z.to_nat table) t)) (zrange max_tables) (e_huff e).

(** src/encoder.rs:785-787, 845-847 — tables used by the scans *)
Definition tables_for (P : platform) (e : encoder) (cs : list component)
  (blocks : list (list (list Z))) : prog (list (htab * htab)) :=
  if e_optimize e then optimize_huffman_table P e cs blocks else Ret (e_huff e).

(** src/encoder.rs:792-828 — the scan of one component in sequential mode *)
Definition sequential_scan (P : platform) (ri : Z) (blocks : list (list Z)) (dc ac : htab)
  (w : bitw) : prog bitw :=
  let* '(w, _, _, _) :=
    foldM (fun '(w, prev_dc, restarts, to_go) block =>
      let* '(w, prev_dc) :=
        (if (0 <? ri) && (to_go =? 0) then
           let* w := finalize_bit_buffer P w in
           write_marker (RST (restarts mod 8)) ;;;
           Ret (w, 0)
         else Ret (w, prev_dc)) in
      let* w := write_block P w block prev_dc dc ac in
      let prev_dc := zn block 0 in
      let* '(restarts, to_go) := restart_after P ri restarts to_go in
      Ret (w, prev_dc, restarts, to_go))
      blocks (w, 0, 0, ri) in
  finalize_bit_buffer P w.

(** src/encoder.rs:778-832 — encode_image_sequential *)
Definition encode_image_sequential (P : platform) (op : operations) (e : encoder)
  (cs : list component) (im : image) (q0 q1 : qtable) (w : bitw) : prog bitw :=
  let* blocks := encode_blocks P op cs im q0 q1 in
  let* ht := tables_for P e cs blocks in
  enc_write_frame_header P e cs ht im q0 q1 ;;;
  let ri := match e_restart e with Some r => r | None => 0 end in
  foldM (fun w '(i, c) =>
    write_scan_header [c] None ;;;
    let* bs := index blocks i in
    let* dc := dc_table ht c in
    let* ac := ac_table ht c in
    sequential_scan P ri bs dc ac w)
    (enumerate cs) w.

(** src/encoder.rs:856-889 — a progressive DC scan *)
Definition dc_scan (P : platform) (ri : Z) (blocks : list (list Z)) (dc : htab) (w : bitw)
  : prog bitw :=
  let* '(w, _, _, _) :=
    foldM (fun '(w, prev_dc, restarts, to_go) block =>
      let* '(w, prev_dc) :=
        (if (0 <? ri) && (to_go =? 0) then
           let* w := finalize_bit_buffer P w in
           write_marker (RST (restarts mod 8)) ;;;
           Ret (w, 0)
         else Ret (w, prev_dc)) in
      let* w := write_dc P w (zn block 0) prev_dc dc in
      let prev_dc := zn block 0 in
      let* '(restarts, to_go) := restart_after P ri restarts to_go in
      Ret (w, prev_dc, restarts, to_go))
      blocks (w, 0, 0, ri) in
  finalize_bit_buffer P w.

(** src/encoder.rs:907-939 — a progressive AC scan of the band [start..end) *)
Definition ac_scan (P : platform) (ri : Z) (blocks : list (list Z)) (start end_ : Z) (ac : htab)
  (w : bitw) : prog bitw :=
  let* '(w, _, _) :=
    foldM (fun '(w, restarts, to_go) block =>
      let* w :=
        (if (0 <? ri) && (to_go =? 0) then
           let* w := finalize_bit_buffer P w in
           write_marker (RST (restarts mod 8)) ;;;
           Ret w
         else Ret w) in
      let* w := write_ac_block P w block start end_ ac in
      let* '(restarts, to_go) := restart_after P ri restarts to_go in
      Ret (w, restarts, to_go))
      blocks (w, 0, ri) in
  finalize_bit_buffer P w.

(** src/encoder.rs:892-904 — the spectral bands of the AC scans, as [start..end) *)
Definition prog_bands (P : platform) (scans : Z) : prog (list (Z * Z)) :=
  let* scans := ck_usize P (scans - 1) in
  if scans =? 0 then Panic POverflow (* division by zero *)
  else
    let values_per_scan := 64 / scans in
    Ret (map (fun scan =>
                (Z.max (scan * values_per_scan) 1,
                 if scan =? scans - 1 then 64 else (scan + 1) * values_per_scan))
             (zrange scans)).

(** src/encoder.rs:837-943 — encode_image_progressive *)
Definition encode_image_progressive (P : platform) (op : operations) (e : encoder) (scans : Z)
  (cs : list component) (im : image) (q0 q1 : qtable) (w : bitw) : prog bitw :=
  let* blocks := encode_blocks P op cs im q0 q1 in
  let* ht := tables_for P e cs blocks in
  enc_write_frame_header P e cs ht im q0 q1 ;;;
  let ri := match e_restart e with Some r => r | None => 0 end in
  let* w := foldM (fun w '(i, c) =>
    write_scan_header [c] (Some (0, 0)) ;;;
    let* bs := index blocks i in
    let* dc := dc_table ht c in
    dc_scan P ri bs dc w)
    (enumerate cs) w in
  let* bands := prog_bands P scans in
  foldM (fun w '(start, end_) =>
    foldM (fun w '(i, c) =>
      let* se := ck_u P 8 (wrap_u 8 end_ - 1) in
      write_scan_header [c] (Some (wrap_u 8 start, se)) ;;;
      let* bs := index blocks i in
      let* ac := ac_table ht c in
      ac_scan P ri bs start end_ ac w)
      (enumerate cs) w)
    bands w.

(** src/encoder.rs:508, 513 — b"Adobe\0\0\0\0\0\0\0" and b"Adobe\0\0\0\0\0\0\x02" *)
Definition ADOBE_UNKNOWN : list Z := [0x41; 0x64; 0x6F; 0x62; 0x65; 0; 0; 0; 0; 0; 0; 0].
Definition ADOBE_YCCK : list Z := [0x41; 0x64; 0x6F; 0x62; 0x65; 0; 0; 0; 0; 0; 0; 2].

(** src/encoder.rs:483-533 — encode_image_internal.  [self.components] is empty before
    init_components, because encode consumes the encoder. *)
Definition encode_image_internal (P : platform) (op : operations) (e : encoder) (im : image)
  : prog unit :=
  if (im_width im =? 0) || (im_height im =? 0) then
    Throw (ZeroImageDimensions (im_width im) (im_height im))
  else
    let* t0 := index (e_qtypes e) 0 in
    let* q0 := new_with_quality t0 (e_quality e) true in
    let* t1 := index (e_qtypes e) 1 in
    let* q1 := new_with_quality t1 (e_quality e) false in
    let cs := e_components e ++ init_components (e_sampling e) (im_color im) in
    write_marker SOI ;;;
    write_header (e_density e) ;;;
    (match im_color im with
     | JCmyk => write_segment P (APP 14) ADOBE_UNKNOWN
     | JYcck => write_segment P (APP 14) ADOBE_YCCK
     | _ => Ret tt
     end) ;;;
    foldM (fun _ '(nr, data) => write_segment P (APP nr) data) (e_segments e) tt ;;;
    let w := bitw_new P in
    let* _ :=
      match e_prog e with
      | Some scans => encode_image_progressive P op e scans cs im q0 q1 w
      | None =>
        if e_optimize e || negb (supports_interleaved (e_sampling e))
        then encode_image_sequential P op e cs im q0 q1 w
        else encode_image_interleaved P op e cs im q0 q1 w
      end in
    write_marker EOI.

(** src/encoder.rs:472-481 — encode_image without the simd feature (or without AVX2) *)
Definition encode_image (P : platform) (e : encoder) (im : image) : prog unit :=
  encode_image_internal P default_operations e im.

(** src/encoder.rs:455-465 — choice of the image buffer *)
Definition image_of (P : platform) (data : list Z) (w h : Z) (c : ctype) : image :=
  match c with
  | Luma => gray_image P data w h
  | Rgb => rgb_image P data w h
  | Rgba => rgba_image P data w h
  | Bgr => bgr_image P data w h
  | Bgra => bgra_image P data w h
  | Ycbcr => ycc_image P data w h
  | Cmyk => cmyk_image P data w h
  | CmykAsYcck => cmyk_as_ycck_image P data w h
  | Ycck => ycck_image P data w h
  end.

(** src/encoder.rs:406-469 — encode (scalar path) *)
Definition encode (P : platform) (e : encoder) (data : list Z) (width height : Z) (c : ctype)
  : prog unit :=
  let* a := ck_usize P (width * height) in
  let* required := ck_usize P (a * bytes_per_pixel c) in
  if zlen data <? required then Throw (BadImageData (zlen data) required)
  else encode_image P e (image_of P data width height c).
