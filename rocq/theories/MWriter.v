(** Model of src/writer.rs and src/marker.rs *)
From Verif Require Export Rust MHuffman MQuant.

(** src/marker.rs:5-43, 77-116 — Marker and its byte value (only the markers the encoder uses) *)
Inductive marker := SOF_baseline | SOF_progressive | DHT | RST (v : Z) | SOI | EOI | SOS | DQT | DRI
                  | APP (v : Z).
Definition marker_byte (m : marker) : Z :=
  match m with
  | SOF_baseline => 0xC0
  | SOF_progressive => 0xC2
  | DHT => 0xC4
  | RST v => 0xD0 + v
  | SOI => 0xD8
  | EOI => 0xD9
  | SOS => 0xDA
  | DQT => 0xDB
  | DRI => 0xDD
  | APP v => 0xE0 + v
  end.

(** src/writer.rs:9-18 — Density *)
Inductive density := DensityNone | DensityInch (x y : Z) | DensityCentimeter (x y : Z).

(** src/writer.rs:23-27 — ZIGZAG *)
Definition ZIGZAG : list Z :=
  [0; 1; 8; 16; 9; 2; 3; 10; 17; 24; 32; 25; 18; 11; 4; 5; 12; 19; 26; 33; 40; 48; 41; 34; 27; 20;
   13; 6; 7; 14; 21; 28; 35; 42; 49; 56; 57; 50; 43; 36; 29; 22; 15; 23; 30; 37; 44; 51; 58; 59;
   52; 45; 38; 31; 39; 46; 53; 60; 61; 54; 47; 55; 62; 63].

(** src/encoder.rs:172-179 — struct Component *)
Record component := {
  c_id : Z; c_qt : Z; c_dc : Z; c_ac : Z; c_h : Z; c_v : Z
}.

(** src/writer.rs:67-71 — the bit buffer of JfifWriter (the sink itself is the program's
    environment) *)
Record bitw := { bit_buffer : Z; free_bits : Z }.

(** src/writer.rs:29 — BUFFER_SIZE = usize::BITS *)
Definition BUFFER_SIZE (P : platform) : Z := ubits P.

(** src/writer.rs:74-80 — JfifWriter::new *)
Definition bitw_new (P : platform) : bitw := {| bit_buffer := 0; free_bits := BUFFER_SIZE P |}.

(** src/writer.rs:83-95 — write, write_u8, write_u16 *)
Definition write (bs : list Z) : prog unit := write_all bs.
Definition write_u8 (v : Z) : prog unit := write_all [v].
Definition write_u16 (v : Z) : prog unit := write_all (be_bytes 2 v).

(** src/writer.rs:116-126 — flush_byte_from_bit_buffer.  The shift amount is an i8 expression. *)
Definition flush_byte (P : platform) (buf fb : Z) : prog unit :=
  let* sh := ck_s P 8 (BUFFER_SIZE P - 8 - fb) in
  let* v := shr_u P (ubits P) buf sh in
  let value := Z.land v 0xFF in
  write_u8 value ;;;
  (if value =? 0xFF then write_u8 0x00 else Ret tt).

(** The literals 0x8080808080808080 / 0x0101010101010101 truncated to usize
    (allow(overflowing_literals)). *)
Definition mask80 (P : platform) : Z := wrap_u (ubits P) 0x8080808080808080.
Definition mask01 (P : platform) : Z := wrap_u (ubits P) 0x0101010101010101.

(** src/writer.rs:130-143 — write_bit_buffer *)
Definition write_bit_buffer (P : platform) (buf : Z) : prog unit :=
  if negb (Z.land (Z.land buf (mask80 P))
                  (2 ^ ubits P - 1 - wrap_u (ubits P) (buf + mask01 P)) =? 0)
  then foldM (fun _ i => flush_byte P buf (i * 8)) (zrange (BUFFER_SIZE P / 8)) tt
  else write_all (be_bytes (Z.to_nat (ubits P / 8)) buf).

(** src/writer.rs:145-161 — write_bits *)
Definition write_bits (P : platform) (w : bitw) (value size : Z) : prog bitw :=
  let size := wrap_s 8 size in
  let value := wrap_u (ubits P) value in
  let* fb := ck_s P 8 (free_bits w - size) in
  if fb <? 0 then
    let* sh := ck_s P 8 (size + fb) in
    let* hi := shl_u P (ubits P) (bit_buffer w) sh in
    let* nfb := ck_s P 8 (- fb) in
    let* lo := shr_u P (ubits P) value nfb in
    write_bit_buffer P (Z.lor hi lo) ;;;
    let* fb' := ck_s P 8 (fb + BUFFER_SIZE P) in
    Ret {| bit_buffer := value; free_bits := fb' |}
  else
    let* hi := shl_u P (ubits P) (bit_buffer w) size in
    Ret {| bit_buffer := Z.lor hi value; free_bits := fb |}.

(** src/writer.rs:106-113 — flush_bit_buffer (each round adds 8 to free_bits) *)
Fixpoint flush_bit_buffer (P : platform) (fuel : nat) (w : bitw) : prog bitw :=
  match fuel with
  | O => Panic PFuel
  | S fuel' =>
    if free_bits w <=? BUFFER_SIZE P - 8 then
      flush_byte P (bit_buffer w) (free_bits w) ;;;
      let* fb := ck_s P 8 (free_bits w + 8) in
      flush_bit_buffer P fuel' {| bit_buffer := bit_buffer w; free_bits := fb |}
    else Ret w
  end.

(** src/writer.rs:97-104 — finalize_bit_buffer *)
Definition finalize_bit_buffer (P : platform) (w : bitw) : prog bitw :=
  let* w := write_bits P w 0x7F 7 in
  let* _ := flush_bit_buffer P 10 w in
  Ret {| bit_buffer := 0; free_bits := BUFFER_SIZE P |}.

(** src/writer.rs:163-165 — write_marker *)
Definition write_marker (m : marker) : prog unit := write [0xFF; marker_byte m].

(** src/writer.rs:167-173 — write_segment *)
Definition write_segment (P : platform) (m : marker) (data : list Z) : prog unit :=
  write_marker m ;;;
  let* n := ck_u P 16 (wrap_u 16 (zlen data) + 2) in
  write_u16 n ;;;
  write data.

(** src/writer.rs:175-202 — write_header *)
Definition write_header (d : density) : prog unit :=
  write_marker (APP 0) ;;;
  write_u16 16 ;;;
  write [0x4A; 0x46; 0x49; 0x46; 0x00] ;;;
  write [0x01; 0x02] ;;;
  match d with
  | DensityNone => write_u8 0x00 ;;; write_u16 1 ;;; write_u16 1
  | DensityInch x y => write_u8 0x01 ;;; write_u16 x ;;; write_u16 y
  | DensityCentimeter x y => write_u8 0x02 ;;; write_u16 x ;;; write_u16 y
  end ;;;
  write [0x00; 0x00].

(** src/writer.rs:215-231 — write_huffman_segment *)
Definition write_huffman_segment (P : platform) (class destination : Z) (t : htab) : prog unit :=
  assert_ (destination <? 4) ;;;
  write_marker DHT ;;;
  let* n := ck_u P 16 (2 + 1 + 16 + wrap_u 16 (zlen (h_values t))) in
  write_u16 n ;;;
  write_u8 (Z.lor (wrap_u 8 (class * 2 ^ 4)) destination) ;;;
  write (h_length t) ;;;
  write (h_values t).

(** src/writer.rs:245-262 — write_quantization_segment *)
Definition write_quantization_segment (destination : Z) (q : qtable) : prog unit :=
  assert_ (destination <? 4) ;;;
  write_marker DQT ;;;
  write_u16 (2 + 1 + 64) ;;;
  write_u8 destination ;;;
  foldM (fun _ v => write_u8 (qt_get q v)) ZIGZAG tt.

(** src/writer.rs:264-268 — write_dri *)
Definition write_dri (restart_interval : Z) : prog unit :=
  write_marker DRI ;;; write_u16 4 ;;; write_u16 restart_interval.

(** src/writer.rs:271-274 — huffman_encode *)
Definition huffman_encode (P : platform) (w : bitw) (val : Z) (t : htab) : prog bitw :=
  let* '(size, code) := get_for_value P t val in
  write_bits P w code size.

(** src/writer.rs:277-291 — huffman_encode_value *)
Definition huffman_encode_value (P : platform) (w : bitw) (size symbol value : Z) (t : htab)
  : prog bitw :=
  let* '(num_bits, code) := get_for_value P t symbol in
  let* hi := shl_u P 32 code size in
  let temp := Z.lor value hi in
  let* size := ck_u P 8 (size + num_bits) in
  write_bits P w temp size.

(** src/writer.rs:418-432 — get_code.  For a non-zero u16 [u], leading_zeros = 15 - log2 u. *)
Definition get_code (P : platform) (value : Z) : prog (Z * Z) :=
  let* temp := ck_s P 16 (value - (if value <? 0 then 1 else 0)) in
  let* temp2 := ck_s P 16 (Z.abs value) in
  let u := Z.lor (wrap_u 16 (temp2 * 2)) 1 in
  let num_bits := 15 - (15 - Z.log2 u) in
  let* m := ck_s P 16 (wrap_s 16 (2 ^ num_bits) - 1) in
  let coefficient := Z.land temp m in
  Ret (wrap_u 8 num_bits, wrap_u 16 coefficient).

(** src/writer.rs:304-316 — write_dc *)
Definition write_dc (P : platform) (w : bitw) (value prev_dc : Z) (dc_table : htab) : prog bitw :=
  let* diff := ck_s P 16 (value - prev_dc) in
  let* '(size, value) := get_code P diff in
  huffman_encode_value P w size size value dc_table.

(** src/writer.rs:331-334 — while zero_run > 15 \{ ..0xF0..; zero_run -= 16 \} *)
Fixpoint write_zrl (P : platform) (fuel : nat) (w : bitw) (zero_run : Z) (t : htab)
  : prog (bitw * Z) :=
  match fuel with
  | O => Panic PFuel
  | S fuel' =>
    if 15 <? zero_run then
      let* w := huffman_encode P w 0xF0 t in
      write_zrl P fuel' w (zero_run - 16) t
    else Ret (w, zero_run)
  end.

(** src/writer.rs:327-343 — the loop over block[start..end]; zero_run is a u8 *)
Fixpoint write_ac_loop (P : platform) (w : bitw) (vals : list Z) (zero_run : Z) (t : htab)
  : prog (bitw * Z) :=
  match vals with
  | [] => Ret (w, zero_run)
  | value :: rest =>
    if value =? 0 then
      let* zr := ck_u P 8 (zero_run + 1) in
      write_ac_loop P w rest zr t
    else
      let* '(w, zero_run) := write_zrl P 17 w zero_run t in
      let* '(size, value) := get_code P value in
      let symbol := Z.lor (wrap_u 8 (zero_run * 2 ^ 4)) size in
      let* w := huffman_encode_value P w size symbol value t in
      write_ac_loop P w rest 0 t
  end.

(** src/writer.rs:318-350 — write_ac_block; slicing [start..end] of a [i16; 64] panics when
    start > end or end > 64 *)
Definition write_ac_block (P : platform) (w : bitw) (block : list Z) (start end_ : Z) (t : htab)
  : prog bitw :=
  if (start <=? end_) && (end_ <=? 64) then
    let* '(w, zero_run) := write_ac_loop P w (slice block start end_) 0 t in
    if 0 <? zero_run then huffman_encode P w 0x00 t else Ret w
  else Panic PIndex.

(** src/writer.rs:293-302 — write_block *)
Definition write_block (P : platform) (w : bitw) (block : list Z) (prev_dc : Z) (dc ac : htab)
  : prog bitw :=
  let* w := write_dc P w (zn block 0) prev_dc dc in
  write_ac_block P w block 1 64 ac.

(** src/writer.rs:352-384 — write_frame_header.  At most four components, so the u16/u8 length
    arithmetic cannot overflow. *)
Definition write_frame_header (width height : Z) (cs : list component) (progressive : bool)
  : prog unit :=
  write_marker (if progressive then SOF_progressive else SOF_baseline) ;;;
  write_u16 (2 + 1 + 2 + 2 + 1 + zlen cs * 3) ;;;
  write_u8 8 ;;;
  write_u16 height ;;;
  write_u16 width ;;;
  write_u8 (zlen cs) ;;;
  foldM (fun _ c =>
           write_u8 (c_id c) ;;;
           write_u8 (Z.lor (wrap_u 8 (c_h c * 2 ^ 4)) (c_v c)) ;;;
           write_u8 (c_qt c)) cs tt.

(** src/writer.rs:386-414 — write_scan_header *)
Definition write_scan_header (cs : list component) (spectral : option (Z * Z)) : prog unit :=
  write_marker SOS ;;;
  write_u16 (2 + 1 + zlen cs * 2 + 3) ;;;
  write_u8 (zlen cs) ;;;
  foldM (fun _ c =>
           write_u8 (c_id c) ;;;
           write_u8 (Z.lor (wrap_u 8 (c_dc c * 2 ^ 4)) (c_ac c))) cs tt ;;;
  let '(ss, se) := match spectral with Some p => p | None => (0, 63) end in
  write_u8 ss ;;;
  write_u8 se ;;;
  write_u8 0.
