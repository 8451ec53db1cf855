(** Model of src/fdct.rs *)
From Verif Require Export Rust.

(** src/fdct.rs:74-88 — constants *)
Definition CONST_BITS : Z := 13.
Definition PASS1_BITS : Z := 2.
Definition FIX_0_298631336 : Z := 2446.
Definition FIX_0_390180644 : Z := 3196.
Definition FIX_0_541196100 : Z := 4433.
Definition FIX_0_765366865 : Z := 6270.
Definition FIX_0_899976223 : Z := 7373.
Definition FIX_1_175875602 : Z := 9633.
Definition FIX_1_501321110 : Z := 12299.
Definition FIX_1_847759065 : Z := 15137.
Definition FIX_1_961570560 : Z := 16069.
Definition FIX_2_053119869 : Z := 16819.
Definition FIX_2_562915447 : Z := 20995.
Definition FIX_3_072711026 : Z := 25172.

(** i32 operations of this build *)
Definition add32 (P : platform) (a b : Z) : prog Z := ck_s P 32 (a + b).
Definition sub32 (P : platform) (a b : Z) : prog Z := ck_s P 32 (a - b).
Definition mul32 (P : platform) (a b : Z) : prog Z := ck_s P 32 (a * b).

(** src/fdct.rs:93-96 — descale: (x + (1 << (n - 1))) >> n *)
Definition descale (P : platform) (x n : Z) : prog Z :=
  let* s := add32 P x (2 ^ (n - 1)) in
  Ret (s / 2 ^ n).

(** src/fdct.rs:99-101 — into_el: cast to i16 *)
Definition into_el (v : Z) : Z := wrap_s 16 v.

(** src/fdct.rs:112-173 — pass 1, one row: d0..d7 are data[offset + 0..7], the result is
    data2[offset + 0..7] *)
Definition fdct_row (P : platform) (d0 d1 d2 d3 d4 d5 d6 d7 : Z) : prog (list Z) :=
  let* tmp0 := add32 P d0 d7 in
  let* tmp7 := sub32 P d0 d7 in
  let* tmp1 := add32 P d1 d6 in
  let* tmp6 := sub32 P d1 d6 in
  let* tmp2 := add32 P d2 d5 in
  let* tmp5 := sub32 P d2 d5 in
  let* tmp3 := add32 P d3 d4 in
  let* tmp4 := sub32 P d3 d4 in
  let* tmp10 := add32 P tmp0 tmp3 in
  let* tmp13 := sub32 P tmp0 tmp3 in
  let* tmp11 := add32 P tmp1 tmp2 in
  let* tmp12 := sub32 P tmp1 tmp2 in
  let* s := add32 P tmp10 tmp11 in
  let o0 := wrap_s 32 (s * 2 ^ PASS1_BITS) in
  let* s := sub32 P tmp10 tmp11 in
  let o4 := wrap_s 32 (s * 2 ^ PASS1_BITS) in
  let* s := add32 P tmp12 tmp13 in
  let* z1 := mul32 P s FIX_0_541196100 in
  let* m := mul32 P tmp13 FIX_0_765366865 in
  let* s := add32 P z1 m in
  let* o2 := descale P s (CONST_BITS - PASS1_BITS) in
  let* m := mul32 P tmp12 (- FIX_1_847759065) in
  let* s := add32 P z1 m in
  let* o6 := descale P s (CONST_BITS - PASS1_BITS) in
  let* z1 := add32 P tmp4 tmp7 in
  let* z2 := add32 P tmp5 tmp6 in
  let* z3 := add32 P tmp4 tmp6 in
  let* z4 := add32 P tmp5 tmp7 in
  let* s := add32 P z3 z4 in
  let* z5 := mul32 P s FIX_1_175875602 in
  let* tmp4 := mul32 P tmp4 FIX_0_298631336 in
  let* tmp5 := mul32 P tmp5 FIX_2_053119869 in
  let* tmp6 := mul32 P tmp6 FIX_3_072711026 in
  let* tmp7 := mul32 P tmp7 FIX_1_501321110 in
  let* z1 := mul32 P z1 (- FIX_0_899976223) in
  let* z2 := mul32 P z2 (- FIX_2_562915447) in
  let* z3 := mul32 P z3 (- FIX_1_961570560) in
  let* z4 := mul32 P z4 (- FIX_0_390180644) in
  let* z3 := add32 P z3 z5 in
  let* z4 := add32 P z4 z5 in
  let* s := add32 P tmp4 z1 in
  let* s := add32 P s z3 in
  let* o7 := descale P s (CONST_BITS - PASS1_BITS) in
  let* s := add32 P tmp5 z2 in
  let* s := add32 P s z4 in
  let* o5 := descale P s (CONST_BITS - PASS1_BITS) in
  let* s := add32 P tmp6 z2 in
  let* s := add32 P s z3 in
  let* o3 := descale P s (CONST_BITS - PASS1_BITS) in
  let* s := add32 P tmp7 z1 in
  let* s := add32 P s z4 in
  let* o1 := descale P s (CONST_BITS - PASS1_BITS) in
  Ret [o0; o1; o2; o3; o4; o5; o6; o7].

(** src/fdct.rs:180-239 — pass 2, one column: dk is data2[DCT_SIZE * k + x], the result holds the
    new data[DCT_SIZE * k + x] *)
Definition fdct_col (P : platform) (d0 d1 d2 d3 d4 d5 d6 d7 : Z) : prog (list Z) :=
  let* tmp0 := add32 P d0 d7 in
  let* tmp7 := sub32 P d0 d7 in
  let* tmp1 := add32 P d1 d6 in
  let* tmp6 := sub32 P d1 d6 in
  let* tmp2 := add32 P d2 d5 in
  let* tmp5 := sub32 P d2 d5 in
  let* tmp3 := add32 P d3 d4 in
  let* tmp4 := sub32 P d3 d4 in
  let* tmp10 := add32 P tmp0 tmp3 in
  let* tmp13 := sub32 P tmp0 tmp3 in
  let* tmp11 := add32 P tmp1 tmp2 in
  let* tmp12 := sub32 P tmp1 tmp2 in
  let* s := add32 P tmp10 tmp11 in
  let* o0 := descale P s PASS1_BITS in
  let o0 := into_el o0 in
  let* s := sub32 P tmp10 tmp11 in
  let* o4 := descale P s PASS1_BITS in
  let o4 := into_el o4 in
  let* s := add32 P tmp12 tmp13 in
  let* z1 := mul32 P s FIX_0_541196100 in
  let* m := mul32 P tmp13 FIX_0_765366865 in
  let* s := add32 P z1 m in
  let* o2 := descale P s (CONST_BITS + PASS1_BITS) in
  let o2 := into_el o2 in
  let* m := mul32 P tmp12 (- FIX_1_847759065) in
  let* s := add32 P z1 m in
  let* o6 := descale P s (CONST_BITS + PASS1_BITS) in
  let o6 := into_el o6 in
  let* z1 := add32 P tmp4 tmp7 in
  let* z2 := add32 P tmp5 tmp6 in
  let* z3 := add32 P tmp4 tmp6 in
  let* z4 := add32 P tmp5 tmp7 in
  let* s := add32 P z3 z4 in
  let* z5 := mul32 P s FIX_1_175875602 in
  let* tmp4 := mul32 P tmp4 FIX_0_298631336 in
  let* tmp5 := mul32 P tmp5 FIX_2_053119869 in
  let* tmp6 := mul32 P tmp6 FIX_3_072711026 in
  let* tmp7 := mul32 P tmp7 FIX_1_501321110 in
  let* z1 := mul32 P z1 (- FIX_0_899976223) in
  let* z2 := mul32 P z2 (- FIX_2_562915447) in
  let* z3 := mul32 P z3 (- FIX_1_961570560) in
  let* z4 := mul32 P z4 (- FIX_0_390180644) in
  let* z3 := add32 P z3 z5 in
  let* z4 := add32 P z4 z5 in
  let* s := add32 P tmp4 z1 in
  let* s := add32 P s z3 in
  let* o7 := descale P s (CONST_BITS + PASS1_BITS) in
  let o7 := into_el o7 in
  let* s := add32 P tmp5 z2 in
  let* s := add32 P s z4 in
  let* o5 := descale P s (CONST_BITS + PASS1_BITS) in
  let o5 := into_el o5 in
  let* s := add32 P tmp6 z2 in
  let* s := add32 P s z3 in
  let* o3 := descale P s (CONST_BITS + PASS1_BITS) in
  let o3 := into_el o3 in
  let* s := add32 P tmp7 z1 in
  let* s := add32 P s z4 in
  let* o1 := descale P s (CONST_BITS + PASS1_BITS) in
  let o1 := into_el o1 in
  Ret [o0; o1; o2; o3; o4; o5; o6; o7].

(** src/fdct.rs:105-240 — fdct on a [i16; 64] block *)
Definition fdct (P : platform) (data : list Z) : prog (list Z) :=
  let* rows := mapM (fun y => let o := y * 8 in
                 fdct_row P (zn data (o + 0)) (zn data (o + 1)) (zn data (o + 2)) (zn data (o + 3))
                            (zn data (o + 4)) (zn data (o + 5)) (zn data (o + 6)) (zn data (o + 7)))
               (zrange 8) in
  let data2 := concat rows in
  let* cols := mapM (fun x =>
                 fdct_col P (zn data2 (8 * 0 + x)) (zn data2 (8 * 1 + x)) (zn data2 (8 * 2 + x))
                            (zn data2 (8 * 3 + x)) (zn data2 (8 * 4 + x)) (zn data2 (8 * 5 + x))
                            (zn data2 (8 * 6 + x)) (zn data2 (8 * 7 + x)))
               (zrange 8) in
  Ret (map (fun i => zn (nth (Z.to_nat (i mod 8)) cols []) (i / 8)) (zrange 64)).
