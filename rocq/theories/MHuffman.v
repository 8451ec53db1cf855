(** Model of src/huffman.rs *)
From Verif Require Export Rust.

(** src/huffman.rs:8-12 — CodingClass, as its discriminant *)
Definition class_dc : Z := 0.
Definition class_ac : Z := 1.

(** src/huffman.rs:14-64 — the standard tables of T.81 K.3 *)
Definition DEFAULT_LUMA_DC_CODE_LENGTHS : list Z :=
  [0x00; 0x01; 0x05; 0x01; 0x01; 0x01; 0x01; 0x01; 0x01; 0x00; 0x00; 0x00; 0x00; 0x00; 0x00; 0x00].
Definition DEFAULT_LUMA_DC_VALUES : list Z :=
  [0x00; 0x01; 0x02; 0x03; 0x04; 0x05; 0x06; 0x07; 0x08; 0x09; 0x0A; 0x0B].
Definition DEFAULT_CHROMA_DC_CODE_LENGTHS : list Z :=
  [0x00; 0x03; 0x01; 0x01; 0x01; 0x01; 0x01; 0x01; 0x01; 0x01; 0x01; 0x00; 0x00; 0x00; 0x00; 0x00].
Definition DEFAULT_CHROMA_DC_VALUES : list Z :=
  [0x00; 0x01; 0x02; 0x03; 0x04; 0x05; 0x06; 0x07; 0x08; 0x09; 0x0A; 0x0B].
Definition DEFAULT_LUMA_AC_CODE_LENGTHS : list Z :=
  [0x00; 0x02; 0x01; 0x03; 0x03; 0x02; 0x04; 0x03; 0x05; 0x05; 0x04; 0x04; 0x00; 0x00; 0x01; 0x7D].
Definition DEFAULT_LUMA_AC_VALUES : list Z :=
  [0x01; 0x02; 0x03; 0x00; 0x04; 0x11; 0x05; 0x12; 0x21; 0x31; 0x41; 0x06; 0x13; 0x51; 0x61; 0x07;
   0x22; 0x71; 0x14; 0x32; 0x81; 0x91; 0xA1; 0x08; 0x23; 0x42; 0xB1; 0xC1; 0x15; 0x52; 0xD1; 0xF0;
   0x24; 0x33; 0x62; 0x72; 0x82; 0x09; 0x0A; 0x16; 0x17; 0x18; 0x19; 0x1A; 0x25; 0x26; 0x27; 0x28;
   0x29; 0x2A; 0x34; 0x35; 0x36; 0x37; 0x38; 0x39; 0x3A; 0x43; 0x44; 0x45; 0x46; 0x47; 0x48; 0x49;
   0x4A; 0x53; 0x54; 0x55; 0x56; 0x57; 0x58; 0x59; 0x5A; 0x63; 0x64; 0x65; 0x66; 0x67; 0x68; 0x69;
   0x6A; 0x73; 0x74; 0x75; 0x76; 0x77; 0x78; 0x79; 0x7A; 0x83; 0x84; 0x85; 0x86; 0x87; 0x88; 0x89;
   0x8A; 0x92; 0x93; 0x94; 0x95; 0x96; 0x97; 0x98; 0x99; 0x9A; 0xA2; 0xA3; 0xA4; 0xA5; 0xA6; 0xA7;
   0xA8; 0xA9; 0xAA; 0xB2; 0xB3; 0xB4; 0xB5; 0xB6; 0xB7; 0xB8; 0xB9; 0xBA; 0xC2; 0xC3; 0xC4; 0xC5;
   0xC6; 0xC7; 0xC8; 0xC9; 0xCA; 0xD2; 0xD3; 0xD4; 0xD5; 0xD6; 0xD7; 0xD8; 0xD9; 0xDA; 0xE1; 0xE2;
   0xE3; 0xE4; 0xE5; 0xE6; 0xE7; 0xE8; 0xE9; 0xEA; 0xF1; 0xF2; 0xF3; 0xF4; 0xF5; 0xF6; 0xF7; 0xF8;
   0xF9; 0xFA].
Definition DEFAULT_CHROMA_AC_CODE_LENGTHS : list Z :=
  [0x00; 0x02; 0x01; 0x02; 0x04; 0x04; 0x03; 0x04; 0x07; 0x05; 0x04; 0x04; 0x00; 0x01; 0x02; 0x77].
Definition DEFAULT_CHROMA_AC_VALUES : list Z :=
  [0x00; 0x01; 0x02; 0x03; 0x11; 0x04; 0x05; 0x21; 0x31; 0x06; 0x12; 0x41; 0x51; 0x07; 0x61; 0x71;
   0x13; 0x22; 0x32; 0x81; 0x08; 0x14; 0x42; 0x91; 0xA1; 0xB1; 0xC1; 0x09; 0x23; 0x33; 0x52; 0xF0;
   0x15; 0x62; 0x72; 0xD1; 0x0A; 0x16; 0x24; 0x34; 0xE1; 0x25; 0xF1; 0x17; 0x18; 0x19; 0x1A; 0x26;
   0x27; 0x28; 0x29; 0x2A; 0x35; 0x36; 0x37; 0x38; 0x39; 0x3A; 0x43; 0x44; 0x45; 0x46; 0x47; 0x48;
   0x49; 0x4A; 0x53; 0x54; 0x55; 0x56; 0x57; 0x58; 0x59; 0x5A; 0x63; 0x64; 0x65; 0x66; 0x67; 0x68;
   0x69; 0x6A; 0x73; 0x74; 0x75; 0x76; 0x77; 0x78; 0x79; 0x7A; 0x82; 0x83; 0x84; 0x85; 0x86; 0x87;
   0x88; 0x89; 0x8A; 0x92; 0x93; 0x94; 0x95; 0x96; 0x97; 0x98; 0x99; 0x9A; 0xA2; 0xA3; 0xA4; 0xA5;
   0xA6; 0xA7; 0xA8; 0xA9; 0xAA; 0xB2; 0xB3; 0xB4; 0xB5; 0xB6; 0xB7; 0xB8; 0xB9; 0xBA; 0xC2; 0xC3;
   0xC4; 0xC5; 0xC6; 0xC7; 0xC8; 0xC9; 0xCA; 0xD2; 0xD3; 0xD4; 0xD5; 0xD6; 0xD7; 0xD8; 0xD9; 0xDA;
   0xE2; 0xE3; 0xE4; 0xE5; 0xE6; 0xE7; 0xE8; 0xE9; 0xEA; 0xF2; 0xF3; 0xF4; 0xF5; 0xF6; 0xF7; 0xF8;
   0xF9; 0xFA].

(** src/huffman.rs:66-70 — struct HuffmanTable *)
Record htab := { h_lookup : list (Z * Z); h_length : list Z; h_values : list Z }.

(** src/huffman.rs:240-253 — create_sizes.  The array is written left to right at position k;
    modelled as the list of written entries padded with the initial zeros.  Writing past the 256th
    entry panics. *)
Definition create_sizes (code_lengths : list Z) : prog (list Z) :=
  let s := concat (map (fun '(i, n) => repeat (i + 1) (Z.to_nat n)) (enumerate code_lengths)) in
  if (length s <=? 256)%nat then Ret (s ++ repeat 0 (256 - length s)) else Panic PIndex.

(** src/huffman.rs:262-271 — the loop of create_codes (take_while size != 0) *)
Fixpoint create_codes_loop (P : platform) (sizes : list Z) (current_code current_size : Z)
  : prog (list Z) :=
  match sizes with
  | [] => Ret []
  | size :: rest =>
    if size =? 0 then Ret []
    else
      let* '(code, csize) :=
        (if current_size =? size then Ret (current_code, current_size)
         else
           let* size_diff := ck_u P 8 (size - current_size) in
           let* c := shl_u P 16 current_code size_diff in
           Ret (c, size)) in
      let* next := ck_u P 16 (code + 1) in
      let* codes := create_codes_loop P rest next csize in
      Ret (code :: codes)
  end.

(** src/huffman.rs:256-274 — create_codes *)
Definition create_codes (P : platform) (sizes : list Z) : prog (list Z) :=
  let* codes := create_codes_loop P sizes 0 (zn sizes 0) in
  Ret (codes ++ repeat 0 (256 - length codes)).

(** src/huffman.rs:277-288 — create_lookup_table *)
Definition create_lookup_table (P : platform) (code_length values : list Z) : prog (list (Z * Z)) :=
  let* sizes := create_sizes code_length in
  let* codes := create_codes P sizes in
  foldM (fun lt '(i, value) =>
           let* s := index sizes i in
           let* c := index codes i in
           Ret (upd lt (Z.to_nat value) (s, c)))
        (enumerate values) (repeat (0, 0) 256).

(** src/huffman.rs:73-79 — HuffmanTable::new *)
Definition huffman_new (P : platform) (length values : list Z) : prog htab :=
  let* lt := create_lookup_table P length values in
  Ret {| h_lookup := lt; h_length := length; h_values := values |}.

(** src/huffman.rs:81-95 — default_luma_dc, default_luma_ac, default_chroma_dc, default_chroma_ac *)
Definition default_luma_dc P := huffman_new P DEFAULT_LUMA_DC_CODE_LENGTHS DEFAULT_LUMA_DC_VALUES.
Definition default_luma_ac P := huffman_new P DEFAULT_LUMA_AC_CODE_LENGTHS DEFAULT_LUMA_AC_VALUES.
Definition default_chroma_dc P := huffman_new P DEFAULT_CHROMA_DC_CODE_LENGTHS DEFAULT_CHROMA_DC_VALUES.
Definition default_chroma_ac P := huffman_new P DEFAULT_CHROMA_AC_CODE_LENGTHS DEFAULT_CHROMA_AC_VALUES.

(** src/huffman.rs:224-228 — get_for_value *)
Definition get_for_value (P : platform) (t : htab) (value : Z) : prog (Z * Z) :=
  let* res := index (h_lookup t) value in
  debug_assert P (0 <? fst res) ;;; Ret res.

(** ** new_optimized *)
Definition U32_MAX : Z := 4294967295.

(** src/huffman.rs:106-115 and 122-131 — the scan for the least non-zero frequency (the last index
    among equals wins); [skip] is [v1] in the second scan. *)
Fixpoint find_least (skip : option nat) (l : list Z) (i : nat) (v : option nat) (vmin : Z)
  : option nat :=
  match l with
  | [] => v
  | f :: l' =>
    if (0 <? f) && (f <=? vmin) && negb (match skip with Some s => (i =? s)%nat | None => false end)
    then find_least skip l' (S i) (Some i) f
    else find_least skip l' (S i) v vmin
  end.

(** src/huffman.rs:141-145 and 149-153 — codesize[v] += 1; while others[v] >= 0 \{ v = others[v];
    codesize[v] += 1 \}.  [others] holds -1 or an index.  Fuel bounds the chain; the usize counters
    cannot overflow. *)
Fixpoint bump_chain (fuel : nat) (others codesize : list Z) (v : nat) : prog (list Z * nat) :=
  match fuel with
  | O => Panic PFuel
  | S fuel' =>
    let codesize := upd codesize v (nth v codesize 0 + 1) in
    let o := nth v others (-1) in
    if 0 <=? o then bump_chain fuel' others codesize (Z.to_nat o) else Ret (codesize, v)
  end.

(** src/huffman.rs:105-154 — Figure K.1 *)
Fixpoint code_sizes_loop (P : platform) (fuel : nat) (freq others codesize : list Z)
  : prog (list Z) :=
  match fuel with
  | O => Panic PFuel
  | S fuel' =>
    match find_least None freq 0 None U32_MAX with
    | None => Ret codesize
    | Some v1 =>
      match find_least (Some v1) freq 0 None U32_MAX with
      | None => Ret codesize
      | Some v2 =>
        let* s := ck_u P 32 (nth v1 freq 0 + nth v2 freq 0) in
        let freq := upd (upd freq v1 s) v2 0 in
        let* '(codesize, v1') := bump_chain 258 others codesize v1 in
        let others := upd others v1' (Z.of_nat v2) in
        let* '(codesize, _) := bump_chain 258 others codesize v2 in
        code_sizes_loop P fuel' freq others codesize
      end
    end
  end.

(** src/huffman.rs:159-165 — Figure K.2; [bits] is [u8; 33] *)
Definition count_sizes (P : platform) (codesize : list Z) : prog (list Z) :=
  foldM (fun bits size =>
           if 0 <? size then
             let* b := index bits size in
             let* b' := ck_u P 8 (b + 1) in
             Ret (upd bits (Z.to_nat size) b')
           else Ret bits)
        codesize (repeat 0 33).

(** src/huffman.rs:174-177 — let mut j = i - 2; while bits[j] == 0 \{ j -= 1 \} *)
Fixpoint find_shorter (P : platform) (bits : list Z) (j : nat) : prog nat :=
  if nth j bits 0 =? 0 then
    match j with
    | O => Panic (if dbg P then POverflow else PIndex)
    | S j' => find_shorter P bits j'
    end
  else Ret j.

(** src/huffman.rs:173-183 — the inner while loop of Figure K.3 for one [i] *)
Fixpoint shorten_level (P : platform) (fuel : nat) (i : nat) (bits : list Z) : prog (list Z) :=
  match fuel with
  | O => Panic PFuel
  | S fuel' =>
    if 0 <? nth i bits 0 then
      let* j := find_shorter P bits (i - 2) in
      let* a := ck_u P 8 (nth i bits 0 - 2) in
      let bits := upd bits i a in
      let* a := ck_u P 8 (nth (i - 1) bits 0 + 1) in
      let bits := upd bits (i - 1) a in
      let* a := ck_u P 8 (nth (j + 1) bits 0 + 2) in
      let bits := upd bits (j + 1) a in
      let* a := ck_u P 8 (nth j bits 0 - 1) in
      let bits := upd bits j a in
      shorten_level P fuel' i bits
    else Ret bits
  end.

(** src/huffman.rs:170-186 — Figure K.3: i = 32, 31, .., 17 *)
Definition limit_lengths (P : platform) (bits : list Z) : prog (list Z) :=
  foldM (fun bits i => shorten_level P 257 i bits) (rev (seq 17 16)) bits.

(** src/huffman.rs:188-192 — while bits[i] == 0 \{ debug_assert!(i > 0); i -= 1 \}; bits[i] -= 1 *)
Fixpoint drop_reserved (P : platform) (bits : list Z) (i : nat) : prog (list Z) :=
  if nth i bits 0 =? 0 then
    match i with
    | O => Panic (if dbg P then PDebugAssert else PIndex)
    | S i' => drop_reserved P bits i'
    end
  else
    let* a := ck_u P 8 (nth i bits 0 - 1) in
    Ret (upd bits i a).

(** src/huffman.rs:196-207 — Figure K.4: symbols 0..=255 sorted by code size 1..=32.  Fewer than
    257 symbols are written, so [huffval[k]] stays in bounds; modelled as the list of written
    values. *)
Definition sort_values (codesize : list Z) : list Z :=
  concat (map (fun i => filter (fun j => zn codesize j =? i) (zrange 256)) (zseg 1 33)).

(** src/huffman.rs:99-221 — HuffmanTable::new_optimized *)
Definition new_optimized (P : platform) (freq : list Z) : prog htab :=
  let* codesize := code_sizes_loop P 258 freq (repeat (-1) 257) (repeat 0 257) in
  let* bits := count_sizes P codesize in
  let* bits := limit_lengths P bits in
  let* bits := drop_reserved P bits 16 in
  let values := sort_values codesize in
  let length := firstn 16 (skipn 1 bits) in
  let* lt := create_lookup_table P length values in
  Ret {| h_lookup := lt; h_length := length; h_values := values |}.
