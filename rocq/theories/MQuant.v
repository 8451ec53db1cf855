(** Model of src/quantization.rs *)
From Verif Require Export Rust.

(** src/quantization.rs:8-40 — QuantizationTableType *)
Inductive qtype :=
| QDefault | QFlat | QCustomMsSsim | QCustomPsnrHvs | QImageMagick | QKleinSilversteinCarney
| QDentalXRays | QVisualDetectionModel | QImprovedDetectionModel
| QCustom (table : list Z).   (* Box<[u16; 64]> *)

(** src/quantization.rs:43-58 — index *)
Definition qtype_index (t : qtype) : prog Z :=
  match t with
  | QDefault => Ret 0
  | QFlat => Ret 1
  | QCustomMsSsim => Ret 2
  | QCustomPsnrHvs => Ret 3
  | QImageMagick => Ret 4
  | QKleinSilversteinCarney => Ret 5
  | QDentalXRays => Ret 6
  | QVisualDetectionModel => Ret 7
  | QImprovedDetectionModel => Ret 8
  | QCustom _ => Panic PAssert
  end.

(** src/quantization.rs:61-183 — the built-in tables *)
Definition DEFAULT_LUMA_TABLES : list (list Z) :=
  [ [16; 11; 10; 16; 24; 40; 51; 61;
    12; 12; 14; 19; 26; 58; 60; 55;
    14; 13; 16; 24; 40; 57; 69; 56;
    14; 17; 22; 29; 51; 87; 80; 62;
    18; 22; 37; 56; 68; 109; 103; 77;
    24; 35; 55; 64; 81; 104; 113; 92;
    49; 64; 78; 87; 103; 121; 120; 101;
    72; 92; 95; 98; 112; 100; 103; 99];
   [16; 16; 16; 16; 16; 16; 16; 16;
    16; 16; 16; 16; 16; 16; 16; 16;
    16; 16; 16; 16; 16; 16; 16; 16;
    16; 16; 16; 16; 16; 16; 16; 16;
    16; 16; 16; 16; 16; 16; 16; 16;
    16; 16; 16; 16; 16; 16; 16; 16;
    16; 16; 16; 16; 16; 16; 16; 16;
    16; 16; 16; 16; 16; 16; 16; 16];
   [12; 17; 20; 21; 30; 34; 56; 63;
    18; 20; 20; 26; 28; 51; 61; 55;
    19; 20; 21; 26; 33; 58; 69; 55;
    26; 26; 26; 30; 46; 87; 86; 66;
    31; 33; 36; 40; 46; 96; 100; 73;
    40; 35; 46; 62; 81; 100; 111; 91;
    46; 66; 76; 86; 102; 121; 120; 101;
    68; 90; 90; 96; 113; 102; 105; 103];
   [9; 10; 12; 14; 27; 32; 51; 62;
    11; 12; 14; 19; 27; 44; 59; 73;
    12; 14; 18; 25; 42; 59; 79; 78;
    17; 18; 25; 42; 61; 92; 87; 92;
    23; 28; 42; 75; 79; 112; 112; 99;
    40; 42; 59; 84; 88; 124; 132; 111;
    42; 64; 78; 95; 105; 126; 125; 99;
    70; 75; 100; 102; 116; 100; 107; 98];
   [16; 16; 16; 18; 25; 37; 56; 85;
    16; 17; 20; 27; 34; 40; 53; 75;
    16; 20; 24; 31; 43; 62; 91; 135;
    18; 27; 31; 40; 53; 74; 106; 156;
    25; 34; 43; 53; 69; 94; 131; 189;
    37; 40; 62; 74; 94; 124; 169; 238;
    56; 53; 91; 106; 131; 169; 226; 311;
    85; 75; 135; 156; 189; 238; 311; 418];
   [10; 12; 14; 19; 26; 38; 57; 86;
    12; 18; 21; 28; 35; 41; 54; 76;
    14; 21; 25; 32; 44; 63; 92; 136;
    19; 28; 32; 41; 54; 75; 107; 157;
    26; 35; 44; 54; 70; 95; 132; 190;
    38; 41; 63; 75; 95; 125; 170; 239;
    57; 54; 92; 107; 132; 170; 227; 312;
    86; 76; 136; 157; 190; 239; 312; 419];
   [7; 8; 10; 14; 23; 44; 95; 241;
    8; 8; 11; 15; 25; 47; 102; 255;
    10; 11; 13; 19; 31; 58; 127; 255;
    14; 15; 19; 27; 44; 83; 181; 255;
    23; 25; 31; 44; 72; 136; 255; 255;
    44; 47; 58; 83; 136; 255; 255; 255;
    95; 102; 127; 181; 255; 255; 255; 255;
    241; 255; 255; 255; 255; 255; 255; 255];
   [15; 11; 11; 12; 15; 19; 25; 32;
    11; 13; 10; 10; 12; 15; 19; 24;
    11; 10; 14; 14; 16; 18; 22; 27;
    12; 10; 14; 18; 21; 24; 28; 33;
    15; 12; 16; 21; 26; 31; 36; 42;
    19; 15; 18; 24; 31; 38; 45; 53;
    25; 19; 22; 28; 36; 45; 55; 65;
    32; 24; 27; 33; 42; 53; 65; 77];
   [14; 10; 11; 14; 19; 25; 34; 45;
    10; 11; 11; 12; 15; 20; 26; 33;
    11; 11; 15; 18; 21; 25; 31; 38;
    14; 12; 18; 24; 28; 33; 39; 47;
    19; 15; 21; 28; 36; 43; 51; 59;
    25; 20; 25; 33; 43; 54; 64; 74;
    34; 26; 31; 39; 51; 64; 77; 91;
    45; 33; 38; 47; 59; 74; 91; 108] ].

Definition DEFAULT_CHROMA_TABLES : list (list Z) :=
  [ [17; 18; 24; 47; 99; 99; 99; 99;
    18; 21; 26; 66; 99; 99; 99; 99;
    24; 26; 56; 99; 99; 99; 99; 99;
    47; 66; 99; 99; 99; 99; 99; 99;
    99; 99; 99; 99; 99; 99; 99; 99;
    99; 99; 99; 99; 99; 99; 99; 99;
    99; 99; 99; 99; 99; 99; 99; 99;
    99; 99; 99; 99; 99; 99; 99; 99];
   [16; 16; 16; 16; 16; 16; 16; 16;
    16; 16; 16; 16; 16; 16; 16; 16;
    16; 16; 16; 16; 16; 16; 16; 16;
    16; 16; 16; 16; 16; 16; 16; 16;
    16; 16; 16; 16; 16; 16; 16; 16;
    16; 16; 16; 16; 16; 16; 16; 16;
    16; 16; 16; 16; 16; 16; 16; 16;
    16; 16; 16; 16; 16; 16; 16; 16];
   [8; 12; 15; 15; 86; 96; 96; 98;
    13; 13; 15; 26; 90; 96; 99; 98;
    12; 15; 18; 96; 99; 99; 99; 99;
    17; 16; 90; 96; 99; 99; 99; 99;
    96; 96; 99; 99; 99; 99; 99; 99;
    99; 99; 99; 99; 99; 99; 99; 99;
    99; 99; 99; 99; 99; 99; 99; 99;
    99; 99; 99; 99; 99; 99; 99; 99];
   [9; 10; 17; 19; 62; 89; 91; 97;
    12; 13; 18; 29; 84; 91; 88; 98;
    14; 19; 29; 93; 95; 95; 98; 97;
    20; 26; 84; 88; 95; 95; 98; 94;
    26; 86; 91; 93; 97; 99; 98; 99;
    99; 100; 98; 99; 99; 99; 99; 99;
    99; 99; 99; 99; 99; 99; 99; 99;
    97; 97; 99; 99; 99; 99; 97; 99];
   [16; 16; 16; 18; 25; 37; 56; 85;
    16; 17; 20; 27; 34; 40; 53; 75;
    16; 20; 24; 31; 43; 62; 91; 135;
    18; 27; 31; 40; 53; 74; 106; 156;
    25; 34; 43; 53; 69; 94; 131; 189;
    37; 40; 62; 74; 94; 124; 169; 238;
    56; 53; 91; 106; 131; 169; 226; 311;
    85; 75; 135; 156; 189; 238; 311; 418];
   [10; 12; 14; 19; 26; 38; 57; 86;
    12; 18; 21; 28; 35; 41; 54; 76;
    14; 21; 25; 32; 44; 63; 92; 136;
    19; 28; 32; 41; 54; 75; 107; 157;
    26; 35; 44; 54; 70; 95; 132; 190;
    38; 41; 63; 75; 95; 125; 170; 239;
    57; 54; 92; 107; 132; 170; 227; 312;
    86; 76; 136; 157; 190; 239; 312; 419];
   [7; 8; 10; 14; 23; 44; 95; 241;
    8; 8; 11; 15; 25; 47; 102; 255;
    10; 11; 13; 19; 31; 58; 127; 255;
    14; 15; 19; 27; 44; 83; 181; 255;
    23; 25; 31; 44; 72; 136; 255; 255;
    44; 47; 58; 83; 136; 255; 255; 255;
    95; 102; 127; 181; 255; 255; 255; 255;
    241; 255; 255; 255; 255; 255; 255; 255];
   [15; 11; 11; 12; 15; 19; 25; 32;
    11; 13; 10; 10; 12; 15; 19; 24;
    11; 10; 14; 14; 16; 18; 22; 27;
    12; 10; 14; 18; 21; 24; 28; 33;
    15; 12; 16; 21; 26; 31; 36; 42;
    19; 15; 18; 24; 31; 38; 45; 53;
    25; 19; 22; 28; 36; 45; 55; 65;
    32; 24; 27; 33; 42; 53; 65; 77];
   [14; 10; 11; 14; 19; 25; 34; 45;
    10; 11; 11; 12; 15; 20; 26; 33;
    11; 11; 15; 18; 21; 25; 31; 38;
    14; 12; 18; 24; 28; 33; 39; 47;
    19; 15; 21; 28; 36; 43; 51; 59;
    25; 20; 25; 33; 43; 54; 64; 74;
    34; 26; 31; 39; 51; 64; 77; 91;
    45; 33; 38; 47; 59; 74; 91; 108] ].

(** src/quantization.rs:185 *)
Definition SHIFT : Z := 15.

(** src/quantization.rs:187-207 — compute_reciprocal.  All values fit u32/i32 for any u32 divisor. *)
Definition compute_reciprocal (divisor : Z) : Z * Z :=
  if divisor <=? 1 then (1, 0)
  else
    let reciprocals := 2 ^ SHIFT / divisor in
    let fractional := (2 ^ SHIFT) mod divisor in
    let correction := divisor / 2 in
    if fractional =? 0 then (reciprocals, correction)
    else if fractional <=? correction then (reciprocals, correction + 1)
    else (reciprocals + 1, correction).

(** src/quantization.rs:209-213 — struct QuantizationTable *)
Record qtable := { qt_table : list Z; qt_reciprocals : list Z; qt_corrections : list Z }.

Definition clamp (v lo hi : Z) : Z := if v <? lo then lo else if hi <? v then hi else v.

(** NonZeroU16::new(v).unwrap(), or the match that panics on None *)
Definition nonzero (v : Z) : prog Z := if v =? 0 then Panic PAssert else Ret v.

(** src/quantization.rs:250-259 — get_user_table *)
Definition get_user_table (table : list Z) : prog (list Z) :=
  mapM (fun v => nonzero (wrap_u 16 (clamp v 1 (2 * 2 ^ 10) * 2 ^ 3))) table.

(** src/quantization.rs:262-268 — the scale factor *)
Definition quality_scale (quality : Z) : Z :=
  let quality := clamp quality 1 100 in
  if quality <? 50 then 5000 / quality else 200 - quality * 2.

(** src/quantization.rs:261-283 — get_with_quality (u32 arithmetic, at most 419 * 5000 + 50) *)
Definition get_with_quality (table : list Z) (quality : Z) : prog (list Z) :=
  let scale := quality_scale quality in
  mapM (fun v =>
          let v := (v * scale + 50) / 100 in
          let v := clamp v 1 255 in
          nonzero (wrap_u 16 (v * 2 ^ 3))) table.

(** src/quantization.rs:216-248 — new_with_quality *)
Definition new_with_quality (table : qtype) (quality : Z) (luma : bool) : prog qtable :=
  let* t :=
    match table with
    | QCustom t => get_user_table t
    | table =>
      let* i := qtype_index table in
      let* t := index (if luma then DEFAULT_LUMA_TABLES else DEFAULT_CHROMA_TABLES) i in
      get_with_quality t quality
    end in
  Ret {| qt_table := t;
         qt_reciprocals := map (fun v => fst (compute_reciprocal v)) t;
         qt_corrections := map (fun v => snd (compute_reciprocal v)) t |}.

(** src/quantization.rs:286-288 — get *)
Definition qt_get (q : qtable) (i : Z) : Z := wrap_u 8 (zn (qt_table q) i / 2 ^ 3).

(** src/quantization.rs:291-307 — quantize (i32 arithmetic with overflow checks, result cast to i16) *)
Definition quantize (P : platform) (q : qtable) (in_value i : Z) : prog Z :=
  let value := in_value in
  let reciprocal := zn (qt_reciprocals q) i in
  let corrections := zn (qt_corrections q) i in
  let abs_value := Z.abs value in
  let* s := ck_s P 32 (abs_value + corrections) in
  let* product := ck_s P 32 (s * reciprocal) in
  let product := product / 2 ^ SHIFT in
  let product := if negb (value =? abs_value) then product * -1 else product in
  Ret (wrap_s 16 product).
