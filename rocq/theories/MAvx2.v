(** Model of src/avx2.rs and src/avx2/: the SIMD transform and colour conversion.
    A 256-bit register is the list of its sixteen 16-bit words, lowest first, as signed numbers.  The
    intrinsics follow the Intel intrinsics guide. *)
From Verif Require Export MEncoder MApi.

(** ** Intrinsics *)
Definition reg := list Z.
Definition map2 {A B C} (f : A -> B -> C) (l : list A) (m : list B) : list C := map (fun '(a, b) => f a b) (combine l m).
Definition low_half {A} (r : list A) : list A := firstn 8 r.
Definition high_half {A} (r : list A) : list A := skipn 8 r.
(** The two 16-bit words of a 32-bit number, and back. *)
Definition lo16 (x : Z) : Z := wrap_s 16 x.
Definition hi16 (x : Z) : Z := wrap_s 16 (x / 65536).
Definition join32 (lo hi : Z) : Z := lo mod 65536 + 65536 * hi.
Fixpoint dwords (r : reg) : list Z :=
  match r with lo :: hi :: r' => join32 lo hi :: dwords r' | _ => [] end.
Definition words (l : list Z) : reg := flat_map (fun x => [lo16 x; hi16 x]) l.

(** arguments of _mm256_set_* are listed from the highest element to the lowest *)
Definition mm256_set_epi16 (l : list Z) : reg := rev l.
Definition mm256_set_epi32 (l : list Z) : reg := words (rev l).
Definition mm256_add_epi16 (a b : reg) : reg := map2 (fun x y => wrap_s 16 (x + y)) a b.
Definition mm256_sub_epi16 (a b : reg) : reg := map2 (fun x y => wrap_s 16 (x - y)) a b.
Definition mm256_slli_epi16 (a : reg) (n : Z) : reg := map (fun x => wrap_s 16 (x * 2 ^ n)) a.
Definition mm256_srai_epi16 (a : reg) (n : Z) : reg := map (fun x => x / 2 ^ n) a.
Definition sign16 (x s : Z) : Z := if s <? 0 then wrap_s 16 (- x) else if s =? 0 then 0 else x.
Definition mm256_sign_epi16 (a b : reg) : reg := map2 sign16 a b.
Definition mm256_add_epi32 (a b : reg) : reg := words (map2 (fun x y => wrap_s 32 (x + y)) (dwords a) (dwords b)).
Definition mm256_srai_epi32 (a : reg) (n : Z) : reg := words (map (fun x => x / 2 ^ n) (dwords a)).
(** products of words, neighbours added *)
Fixpoint madd (a b : reg) : list Z :=
  match a, b with
  | x0 :: x1 :: a', y0 :: y1 :: b' => wrap_s 32 (x0 * y0 + x1 * y1) :: madd a' b'
  | _, _ => []
  end.
Definition mm256_madd_epi16 (a b : reg) : reg := words (madd a b).
Definition sat16 (x : Z) : Z := Z.max (-32768) (Z.min 32767 x).
(** the following work on the two 128-bit halves separately *)
Definition halves (f : reg -> reg -> reg) (a b : reg) : reg :=
  f (low_half a) (low_half b) ++ f (high_half a) (high_half b).
Definition mm256_packs_epi32 : reg -> reg -> reg :=
  halves (fun a b => map sat16 (dwords a) ++ map sat16 (dwords b)).
Fixpoint interleave (n : nat) (a b : list Z) : list Z :=
  match n with O => [] | S n => match a, b with x :: a', y :: b' => x :: y :: interleave n a' b' | _, _ => [] end end.
Fixpoint interleave2 (n : nat) (a b : list Z) : list Z :=
  match n with O => [] | S n =>
    match a, b with x0 :: x1 :: a', y0 :: y1 :: b' => x0 :: x1 :: y0 :: y1 :: interleave2 n a' b' | _, _ => [] end end.
Definition mm256_unpacklo_epi16 : reg -> reg -> reg := halves (fun a b => interleave 4 a b).
Definition mm256_unpackhi_epi16 : reg -> reg -> reg := halves (fun a b => interleave 4 (skipn 4 a) (skipn 4 b)).
Definition mm256_unpacklo_epi32 : reg -> reg -> reg := halves (fun a b => interleave2 2 a b).
Definition mm256_unpackhi_epi32 : reg -> reg -> reg := halves (fun a b => interleave2 2 (skipn 4 a) (skipn 4 b)).
(** one of the four halves of a and b, or zero *)
Definition select128 (a b : reg) (ctl : Z) : reg :=
  if Z.testbit ctl 3 then repeat 0 8
  else match ctl mod 4 with 0 => low_half a | 1 => high_half a | 2 => low_half b | _ => high_half b end.
Definition mm256_permute2x128_si256 (a b : reg) (imm : Z) : reg := select128 a b (imm mod 16) ++ select128 a b (imm / 16).
Definition qword (a : reg) (i : Z) : reg := firstn 4 (skipn (Z.to_nat (4 * i)) a).
Definition mm256_permute4x64_epi64 (a : reg) (imm : Z) : reg :=
  qword a (imm mod 4) ++ qword a (imm / 4 mod 4) ++ qword a (imm / 16 mod 4) ++ qword a (imm / 64 mod 4).
(** register [i] of a block of 64 words *)
Definition mm256_loadu_si256 (data : list Z) (i : Z) : reg := slice data (16 * i) (16 * i + 16).

(** ** src/avx2/fdct.rs *)
(** src/avx2/fdct.rs:28-57 — constants: those of src/fdct.rs under other names *)
Definition F_0_298 : Z := 2446.
Definition F_0_390 : Z := 3196.
Definition F_0_541 : Z := 4433.
Definition F_0_765 : Z := 6270.
Definition F_0_899 : Z := 7373.
Definition F_1_175 : Z := 9633.
Definition F_1_501 : Z := 12299.
Definition F_1_847 : Z := 15137.
Definition F_1_961 : Z := 16069.
Definition F_2_053 : Z := 16819.
Definition F_2_562 : Z := 20995.
Definition F_3_072 : Z := 25172.
Definition DESCALE_P1 : Z := CONST_BITS - PASS1_BITS.
Definition DESCALE_P2 : Z := CONST_BITS + PASS1_BITS.

(** four times the pair (a, b), then four times (c, d): the shape of all the constants below *)
Definition set_pairs (a b c d : Z) : reg := mm256_set_epi16 [a; b; a; b; a; b; a; b; c; d; c; d; c; d; c; d].
(** src/avx2/fdct.rs:68-89 *)
Definition PW_F130_F054_MF130_F054 : reg := set_pairs F_0_541 (F_0_541 - F_1_847) F_0_541 (F_0_541 + F_0_765).
(** src/avx2/fdct.rs:91-112 *)
Definition PW_MF078_F117_F078_F117 : reg := set_pairs F_1_175 (F_1_175 - F_0_390) F_1_175 (F_1_175 - F_1_961).
(** src/avx2/fdct.rs:114-135 *)
Definition PW_MF060_MF089_MF050_MF256 : reg := set_pairs (- F_2_562) (F_2_053 - F_2_562) (- F_0_899) (F_0_298 - F_0_899).
(** src/avx2/fdct.rs:137-158 *)
Definition PW_F050_MF256_F060_MF089 : reg := set_pairs (- F_0_899) (F_1_501 - F_0_899) (- F_2_562) (F_3_072 - F_2_562).
(** src/avx2/fdct.rs:160-186 *)
Definition PD_DESCALE_P (first_pass : bool) : reg :=
  if first_pass then mm256_set_epi32 (repeat (2 ^ (DESCALE_P1 - 1)) 8)
  else mm256_set_epi32 (repeat (2 ^ (DESCALE_P2 - 1)) 8).
(** src/avx2/fdct.rs:188-201 — 32-bit elements, although it is added with _mm256_add_epi16 *)
Definition PW_DESCALE_P2X : reg := mm256_set_epi32 (repeat (2 ^ (PASS1_BITS - 1)) 8).

(** src/avx2/fdct.rs:203-244 — do_transpose *)
Definition do_transpose (i1 i2 i3 i4 : reg) : reg * reg * reg * reg :=
  let t5 := mm256_unpacklo_epi16 i1 i2 in
  let t6 := mm256_unpackhi_epi16 i1 i2 in
  let t7 := mm256_unpacklo_epi16 i3 i4 in
  let t8 := mm256_unpackhi_epi16 i3 i4 in
  let t1 := mm256_unpacklo_epi32 t5 t7 in
  let t2 := mm256_unpackhi_epi32 t5 t7 in
  let t3 := mm256_unpacklo_epi32 t6 t8 in
  let t4 := mm256_unpackhi_epi32 t6 t8 in
  (mm256_permute4x64_epi64 t1 0x8D, mm256_permute4x64_epi64 t2 0x8D,
   mm256_permute4x64_epi64 t3 0xD8, mm256_permute4x64_epi64 t4 0xD8).

(** src/avx2/fdct.rs:246-413 — do_dct *)
Definition do_dct (first_pass : bool) (i1 i2 i3 i4 : reg) : reg * reg * reg * reg :=
  let shift t := if first_pass then mm256_srai_epi32 t DESCALE_P1 else mm256_srai_epi32 t DESCALE_P2 in
  let t5 := mm256_sub_epi16 i1 i4 in
  let t6 := mm256_add_epi16 i1 i4 in
  let t7 := mm256_add_epi16 i2 i3 in
  let t8 := mm256_sub_epi16 i2 i3 in
  (* even part *)
  let t6 := mm256_permute2x128_si256 t6 t6 0x01 in
  let t1 := mm256_add_epi16 t6 t7 in
  let t6 := mm256_sub_epi16 t6 t7 in
  let t7 := mm256_permute2x128_si256 t1 t1 0x01 in
  let t1 := mm256_sign_epi16 t1 (mm256_set_epi16 [-1; -1; -1; -1; -1; -1; -1; -1; 1; 1; 1; 1; 1; 1; 1; 1]) in
  let t7 := mm256_add_epi16 t7 t1 in
  let t1 := if first_pass then mm256_slli_epi16 t7 PASS1_BITS
            else let t7 := mm256_add_epi16 t7 PW_DESCALE_P2X in mm256_srai_epi16 t7 PASS1_BITS in
  let t7 := mm256_permute2x128_si256 t6 t6 0x01 in
  let t2 := mm256_unpacklo_epi16 t6 t7 in
  let t6 := mm256_unpackhi_epi16 t6 t7 in
  let t2 := mm256_madd_epi16 t2 PW_F130_F054_MF130_F054 in
  let t6 := mm256_madd_epi16 t6 PW_F130_F054_MF130_F054 in
  let t2 := mm256_add_epi32 t2 (PD_DESCALE_P first_pass) in
  let t6 := mm256_add_epi32 t6 (PD_DESCALE_P first_pass) in
  let t2 := shift t2 in
  let t6 := shift t6 in
  let t3 := mm256_packs_epi32 t2 t6 in
  (* odd part *)
  let t7 := mm256_add_epi16 t8 t5 in
  let t2 := mm256_permute2x128_si256 t7 t7 0x01 in
  let t6 := mm256_unpacklo_epi16 t7 t2 in
  let t7 := mm256_unpackhi_epi16 t7 t2 in
  let t6 := mm256_madd_epi16 t6 PW_MF078_F117_F078_F117 in
  let t7 := mm256_madd_epi16 t7 PW_MF078_F117_F078_F117 in
  let t4 := mm256_permute2x128_si256 t5 t5 0x01 in
  let t2 := mm256_unpacklo_epi16 t8 t4 in
  let t4 := mm256_unpackhi_epi16 t8 t4 in
  let t2 := mm256_madd_epi16 t2 PW_MF060_MF089_MF050_MF256 in
  let t4 := mm256_madd_epi16 t4 PW_MF060_MF089_MF050_MF256 in
  let t2 := mm256_add_epi32 t2 t6 in
  let t4 := mm256_add_epi32 t4 t7 in
  let t2 := mm256_add_epi32 t2 (PD_DESCALE_P first_pass) in
  let t4 := mm256_add_epi32 t4 (PD_DESCALE_P first_pass) in
  let t2 := shift t2 in
  let t4 := shift t4 in
  let t4 := mm256_packs_epi32 t2 t4 in
  let t2 := mm256_permute2x128_si256 t8 t8 0x01 in
  let t8 := mm256_unpacklo_epi16 t5 t2 in
  let t5 := mm256_unpackhi_epi16 t5 t2 in
  let t8 := mm256_madd_epi16 t8 PW_F050_MF256_F060_MF089 in
  let t5 := mm256_madd_epi16 t5 PW_F050_MF256_F060_MF089 in
  let t8 := mm256_add_epi32 t8 t6 in
  let t5 := mm256_add_epi32 t5 t7 in
  let t8 := mm256_add_epi32 t8 (PD_DESCALE_P first_pass) in
  let t5 := mm256_add_epi32 t5 (PD_DESCALE_P first_pass) in
  let t8 := shift t8 in
  let t5 := shift t5 in
  let t2 := mm256_packs_epi32 t8 t5 in
  (t1, t2, t3, t4).

(** src/avx2/fdct.rs:59-67, 415-460 — fdct_avx2; the result is the new contents of the array *)
Definition fdct_avx2 (data : list Z) : list Z :=
  let ymm4 := mm256_loadu_si256 data 0 in
  let ymm5 := mm256_loadu_si256 data 1 in
  let ymm6 := mm256_loadu_si256 data 2 in
  let ymm7 := mm256_loadu_si256 data 3 in
  let ymm0 := mm256_permute2x128_si256 ymm4 ymm6 0x20 in
  let ymm1 := mm256_permute2x128_si256 ymm4 ymm6 0x31 in
  let ymm2 := mm256_permute2x128_si256 ymm5 ymm7 0x20 in
  let ymm3 := mm256_permute2x128_si256 ymm5 ymm7 0x31 in
  let '(ymm0, ymm1, ymm2, ymm3) := do_transpose ymm0 ymm1 ymm2 ymm3 in
  let '(ymm0, ymm1, ymm2, ymm3) := do_dct true ymm0 ymm1 ymm2 ymm3 in
  let ymm4 := mm256_permute2x128_si256 ymm1 ymm3 0x20 in
  let ymm1 := mm256_permute2x128_si256 ymm1 ymm3 0x31 in
  let '(ymm0, ymm1, ymm2, ymm4) := do_transpose ymm0 ymm1 ymm2 ymm4 in
  let '(ymm0, ymm1, ymm2, ymm4) := do_dct false ymm0 ymm1 ymm2 ymm4 in
  let ymm3 := mm256_permute2x128_si256 ymm0 ymm1 0x30 in
  let ymm5 := mm256_permute2x128_si256 ymm2 ymm1 0x20 in
  let ymm6 := mm256_permute2x128_si256 ymm0 ymm4 0x31 in
  let ymm7 := mm256_permute2x128_si256 ymm2 ymm4 0x21 in
  ymm3 ++ ymm5 ++ ymm6 ++ ymm7.

(** src/avx2.rs:8-15 — AVX2Operations *)
Definition avx2_operations : operations := {| op_fdct := fun _ block => Ret (fdct_avx2 block) |}.

(** ** src/avx2/ycbcr.rs
    A register is here the list of its eight 32-bit lanes, lowest first, as signed numbers. *)
Definition set32 (l : list Z) : list Z := rev l.
Definition set1_32 (z : Z) : list Z := repeat z 8.
Definition mullo32 (a b : list Z) : list Z := map2 (fun x y => wrap_s 32 (x * y)) a b.
Definition add32 (a b : list Z) : list Z := map2 (fun x y => wrap_s 32 (x + y)) a b.
Definition sub32 (a b : list Z) : list Z := map2 (fun x y => wrap_s 32 (x - y)) a b.
(** logical shift: zeroes come in from the left *)
Definition srli32 (a : list Z) (n : Z) : list Z := map (fun x => wrap_s 32 (x mod 2 ^ 32 / 2 ^ n)) a.

(** [*data.offset(i)]: reading outside the slice is undefined *)
Definition read_ptr (data : list Z) (i : Z) : prog Z :=
  if (0 <=? i) && (i <? zlen data) then Ret (zn data i) else Panic PUndefined.

(** src/avx2/ycbcr.rs:24-35 — load3: eight samples, the first in the highest lane *)
Definition load3 (data : list Z) (num_colors p : Z) : prog (list Z) :=
  let* l := mapM (fun k => read_ptr data (p + k * num_colors)) (zrange 8) in
  Ret (set32 l).

(** src/avx2/ycbcr.rs:68-75 *)
Definition y_lanes (r g b : list Z) : list Z :=
  let y := add32 (add32 (mullo32 (set1_32 19595) r) (mullo32 (set1_32 38470) g)) (mullo32 (set1_32 7471) b) in
  let y := add32 y (set1_32 0x7FFF) in
  srli32 y 16.
(** src/avx2/ycbcr.rs:77-85 *)
Definition cb_lanes (r g b : list Z) : list Z :=
  let cb := add32 (sub32 (mullo32 (set1_32 (-11059)) r) (mullo32 (set1_32 21709) g)) (mullo32 (set1_32 32768) b) in
  let cb := add32 cb (set1_32 (128 * 2 ^ 16)) in
  let cb := add32 cb (set1_32 0x7FFF) in
  srli32 cb 16.
(** src/avx2/ycbcr.rs:87-95 *)
Definition cr_lanes (r g b : list Z) : list Z :=
  let cr := sub32 (sub32 (mullo32 (set1_32 32768) r) (mullo32 (set1_32 27439) g)) (mullo32 (set1_32 5329) b) in
  let cr := add32 cr (set1_32 (128 * 2 ^ 16)) in
  let cr := add32 cr (set1_32 0x7FFF) in
  srli32 cr 16.

(** src/avx2/ycbcr.rs:22-128 — fill_buffers_avx2.  [cap] is the capacity of the vectors it is given; making
    a vector longer than that with set_len, and writing there, is undefined.  The three output pointers run
    over the new parts of the vectors from their start, so writing through them is appending. *)
Definition fill_buffers_avx2 (P : platform) (num_colors o1 o2 o3 : Z) (data : list Z) (w cap y : Z) (bs : bufs)
  : prog bufs :=
  match bs with
  | [b0; b1; b2; b3] =>
    if (cap <? zlen b0 + w) || (cap <? zlen b1 + w) || (cap <? zlen b2 + w) then Panic PUndefined
    else
      let* a := ck_s P (ubits P) (y * w) in
      let* start := ck_s P (ubits P) (a * num_colors) in
      let* '(p, b0, b1, b2) := foldM (fun '(p, b0, b1, b2) _ =>
        let* r := load3 data num_colors (p + o1) in
        let* g := load3 data num_colors (p + o2) in
        let* b := load3 data num_colors (p + o3) in
        Ret (p + num_colors * 8,
             b0 ++ map (wrap_u 8) (rev (y_lanes r g b)),
             b1 ++ map (wrap_u 8) (rev (cb_lanes r g b)),
             b2 ++ map (wrap_u 8) (rev (cr_lanes r g b)))) (zrange (w / 8)) (start, b0, b1, b2) in
      let* '(p, b0, b1, b2) := foldM (fun '(p, b0, b1, b2) _ =>
        let* r := read_ptr data (p + o1) in
        let* g := read_ptr data (p + o2) in
        let* b := read_ptr data (p + o3) in
        let '(y, cb, cr) := rgb_to_ycbcr r g b in
        Ret (p + num_colors, b0 ++ [y], b1 ++ [cb], b2 ++ [cr])) (zrange (w mod 8)) (p, b0, b1, b2) in
      Ret [b0; b1; b2; b3]
  | _ => Panic PUnreachable
  end.

(** src/avx2/ycbcr.rs:131-150 — macro ycbcr_image_avx2!: the image buffer *)
Definition ycbcr_image_avx2 (P : platform) (num_colors o1 o2 o3 cap : Z) (data : list Z) (w h : Z) : image :=
  {| im_color := JYcbcr; im_width := w; im_height := h;
     im_fill := fun y bs => fill_buffers_avx2 P num_colors o1 o2 o3 data w cap y bs |}.

(** src/avx2/ycbcr.rs:154-157 and src/encoder.rs:428-452 — the image buffers of the SIMD path *)
Definition image_of_avx2 (P : platform) (cap : Z) (data : list Z) (w h : Z) (c : ctype) : image :=
  match c with
  | Rgb => ycbcr_image_avx2 P 3 0 1 2 cap data w h
  | Rgba => ycbcr_image_avx2 P 4 0 1 2 cap data w h
  | Bgr => ycbcr_image_avx2 P 3 2 1 0 cap data w h
  | Bgra => ycbcr_image_avx2 P 4 2 1 0 cap data w h
  | _ => image_of P data w h c
  end.

(** src/encoder.rs:635-660, 682-685, 961-964 — [buffer_size], the capacity of the sample buffers; the
    arithmetic may wrap in a release build (with overflow checks it panics, see encode_blocks and
    encode_image_interleaved).  Vec::with_capacity may allocate more; nothing more is assumed here. *)
Definition row_capacity (P : platform) (e : encoder) (color : jcolor) (width height : Z) : Z :=
  let '(maxh, maxv) := max_sampling (e_components e ++ init_components (e_sampling e) color) in
  let blocks := wrap_u (ubits P) ((ceil_div width (8 * maxh) * maxh) * (ceil_div height (8 * maxv) * maxv) * 64) in
  let rows := wrap_u (ubits P) (ceil_div width (8 * maxh) * 8 * maxh * 8 * maxv) in
  match e_prog e with
  | Some _ => blocks
  | None => if e_optimize e || negb (supports_interleaved (e_sampling e)) then blocks else rows
  end.

(** src/encoder.rs:472-481 — encode_image with the simd feature on a processor with AVX2 *)
Definition encode_image_avx2 (P : platform) (e : encoder) (im : image) : prog unit :=
  encode_image_internal P avx2_operations e im.

(** src/encoder.rs:406-453 — encode with the simd feature on a processor with AVX2 *)
Definition encode_avx2 (P : platform) (e : encoder) (data : list Z) (width height : Z) (c : ctype) : prog unit :=
  let* a := ck_usize P (width * height) in
  let* required := ck_usize P (a * bytes_per_pixel c) in
  if zlen data <? required then Throw (BadImageData (zlen data) required)
  else
    let cap := row_capacity P e (im_color (image_of P data width height c)) width height in
    encode_image_avx2 P e (image_of_avx2 P cap data width height c).

(** Construct, configure, encode; compare MApi.v *)
Definition run_encode_avx2 (P : platform) (quality : Z) (cs : list call) (data : list Z) (w h : Z) (c : ctype) : prog unit :=
  let* '(e, _) := build P quality cs in encode_avx2 P e data w h c.
Definition run_encode_image_avx2 (P : platform) (quality : Z) (cs : list call) (im : image) : prog unit :=
  let* '(e, _) := build P quality cs in encode_image_avx2 P e im.
