(** The AVX2 transform: lane by lane, then without wrapping. *)
From Verif Require Export PFdct MAvx2.
From Coq Require Import ZifyBool ZifyNat.
Local Ltac Zify.zify_post_hook ::= Z.div_mod_to_equations.

(** One lane *)
Definition J (x : Z) : Z := join32 (lo16 x) (hi16 x).
Definition add16 (a b : Z) : Z := wrap_s 16 (a + b).
Definition sub16 (a b : Z) : Z := wrap_s 16 (a - b).
Definition madd2 (a b c d : Z) : Z := wrap_s 32 (a * b + c * d).
Definition add32w (a b : Z) : Z := wrap_s 32 (J a + J b).
Definition down (first : bool) (x : Z) : Z :=
  sat16 (J (J (add32w x (2 ^ ((if first then DESCALE_P1 else DESCALE_P2) - 1)))
            / 2 ^ (if first then DESCALE_P1 else DESCALE_P2))).
Definition plain (first : bool) (l : nat) (x : Z) : Z :=
  if first then wrap_s 16 (x * 2 ^ PASS1_BITS)
  else add16 x (if Nat.even l then lo16 (2 ^ (PASS1_BITS - 1)) else hi16 (2 ^ (PASS1_BITS - 1))) / 2 ^ PASS1_BITS.
Definition lane_dct (first : bool) (l : nat) (d0 d1 d2 d3 d4 d5 d6 d7 : Z) : list Z :=
  let tmp0 := add16 d0 d7 in let tmp7 := sub16 d0 d7 in
  let tmp1 := add16 d1 d6 in let tmp6 := sub16 d1 d6 in
  let tmp2 := add16 d2 d5 in let tmp5 := sub16 d2 d5 in
  let tmp3 := add16 d3 d4 in let tmp4 := sub16 d3 d4 in
  let tmp10 := add16 tmp0 tmp3 in let tmp13 := sub16 tmp0 tmp3 in
  let tmp11 := add16 tmp1 tmp2 in let tmp12 := sub16 tmp1 tmp2 in
  let o0 := plain first l (add16 tmp11 (sign16 tmp10 1)) in
  let o4 := plain first l (add16 tmp10 (sign16 tmp11 (-1))) in
  let o2 := down first (madd2 tmp13 (F_0_541 + F_0_765) tmp12 F_0_541) in
  let o6 := down first (madd2 tmp12 (F_0_541 - F_1_847) tmp13 F_0_541) in
  let z3 := add16 tmp4 tmp6 in let z4 := add16 tmp5 tmp7 in
  let y3 := madd2 z3 (F_1_175 - F_1_961) z4 F_1_175 in
  let y4 := madd2 z4 (F_1_175 - F_0_390) z3 F_1_175 in
  let o7 := down first (add32w (madd2 tmp4 (F_0_298 - F_0_899) tmp7 (- F_0_899)) y3) in
  let o5 := down first (add32w (madd2 tmp5 (F_2_053 - F_2_562) tmp6 (- F_2_562)) y4) in
  let o3 := down first (add32w (madd2 tmp6 (F_3_072 - F_2_562) tmp5 (- F_2_562)) y3) in
  let o1 := down first (add32w (madd2 tmp7 (F_1_501 - F_0_899) tmp4 (- F_0_899)) y4) in
  [o0; o1; o2; o3; o4; o5; o6; o7].

(** Two rows of an 8x8 matrix in one register *)
Definition matrix := nat -> nat -> Z.
Definition row2 (M : matrix) (i j : nat) : reg :=
  [M i 0; M i 1; M i 2; M i 3; M i 4; M i 5; M i 6; M i 7; M j 0; M j 1; M j 2; M j 3; M j 4; M j 5; M j 6; M j 7]%nat.
Definition tr (M : matrix) : matrix := fun i j => M j i.
Definition dct_lanes (first : bool) (M : matrix) : matrix := fun k l =>
  nth k (lane_dct first l (M 0%nat l) (M 1%nat l) (M 2%nat l) (M 3%nat l) (M 4%nat l) (M 5%nat l) (M 6%nat l) (M 7%nat l)) 0.

Lemma transpose_ok M : do_transpose (row2 M 0 4) (row2 M 1 5) (row2 M 2 6) (row2 M 3 7)
  = (row2 (tr M) 1 0, row2 (tr M) 3 2, row2 (tr M) 4 5, row2 (tr M) 6 7).
Proof. reflexivity. Qed.

Lemma swap_halves a : mm256_permute2x128_si256 a a 0x01 = high_half a ++ low_half a.
Proof. reflexivity. Qed.
Lemma sign_const : mm256_set_epi16 [-1; -1; -1; -1; -1; -1; -1; -1; 1; 1; 1; 1; 1; 1; 1; 1]
  = [1; 1; 1; 1; 1; 1; 1; 1; -1; -1; -1; -1; -1; -1; -1; -1].
Proof. reflexivity. Qed.

Ltac unreg := cbv beta iota zeta delta [do_dct row2 mm256_sub_epi16 mm256_add_epi16 mm256_sign_epi16
  mm256_slli_epi16 mm256_srai_epi16 mm256_unpacklo_epi16 mm256_unpackhi_epi16 mm256_madd_epi16 mm256_add_epi32 mm256_srai_epi32
  mm256_packs_epi32 PW_DESCALE_P2X PD_DESCALE_P mm256_set_epi16 mm256_set_epi32 words flat_map rev repeat app map2 combine map halves low_half high_half
  firstn skipn interleave madd dwords set_pairs PW_F130_F054_MF130_F054 PW_MF078_F117_F078_F117 PW_MF060_MF089_MF050_MF256 PW_F050_MF256_F060_MF089
  dct_lanes lane_dct nth J add16 sub16 madd2 add32w down plain Nat.even].

Lemma dct_true M : do_dct true (row2 M 1 0) (row2 M 3 2) (row2 M 4 5) (row2 M 6 7)
  = (row2 (dct_lanes true M) 0 4, row2 (dct_lanes true M) 3 1, row2 (dct_lanes true M) 2 6, row2 (dct_lanes true M) 7 5).
Proof. unfold do_dct. rewrite sign_const, !swap_halves. unreg. reflexivity. Qed.
Lemma dct_false M : do_dct false (row2 M 1 0) (row2 M 3 2) (row2 M 4 5) (row2 M 6 7)
  = (row2 (dct_lanes false M) 0 4, row2 (dct_lanes false M) 3 1, row2 (dct_lanes false M) 2 6, row2 (dct_lanes false M) 7 5).
Proof. unfold do_dct. rewrite sign_const, !swap_halves. unreg. reflexivity. Qed.

(** ** No lane wraps or saturates *)
Lemma J_id x : -2147483648 <= x < 2147483648 -> J x = x.
Proof.
  intros H. unfold J, join32, lo16, hi16, wrap_s. change (2 ^ (16 - 1)) with 32768. change (2 ^ 16) with 65536. lia.
Qed.
Lemma wrap16_id x : -32768 <= x < 32768 -> wrap_s 16 x = x.
Proof. intros H. apply wrap_s_id; change (2 ^ (16 - 1)) with 32768; lia. Qed.
Lemma wrap32_id x : -2147483648 <= x < 2147483648 -> wrap_s 32 x = x.
Proof. intros H. apply wrap_s_id; change (2 ^ (32 - 1)) with 2147483648; lia. Qed.
Lemma sign_neg x : -32768 < x < 32768 -> sign16 x (-1) = - x.
Proof. intros H. unfold sign16. change (-1 <? 0) with true. cbv iota. apply wrap16_id. lia. Qed.
Lemma sign_pos x : sign16 x 1 = x. Proof. reflexivity. Qed.

Lemma down_true x : -64000000 <= x <= 64000000 -> down true x = rdiv x 11.
Proof.
  intros H. unfold down, rdiv, add32w, DESCALE_P1, CONST_BITS, PASS1_BITS. change (13 - 2) with 11.
  change (2 ^ (11 - 1)) with 1024. change (2 ^ 11) with 2048. change (J 1024) with 1024.
  rewrite (J_id x) by lia. rewrite wrap32_id by lia. rewrite (J_id (x + 1024)) by lia. rewrite J_id by lia.
  unfold sat16. lia.
Qed.
Lemma down_false x : -1000000000 <= x <= 1000000000 -> down false x = rdiv x 15.
Proof.
  intros H. unfold down, rdiv, add32w, DESCALE_P2, CONST_BITS, PASS1_BITS. change (13 + 2) with 15.
  change (2 ^ (15 - 1)) with 16384. change (2 ^ 15) with 32768. change (J 16384) with 16384.
  rewrite (J_id x) by lia. rewrite wrap32_id by lia. rewrite (J_id (x + 16384)) by lia. rewrite J_id by lia.
  unfold sat16. lia.
Qed.

Lemma add16_id x y : -32768 <= x + y < 32768 -> add16 x y = x + y. Proof. apply wrap16_id. Qed.
Lemma sub16_id x y : -32768 <= x - y < 32768 -> sub16 x y = x - y. Proof. apply wrap16_id. Qed.
Lemma madd2_id x a y b : -2147483648 <= x * a + y * b < 2147483648 -> madd2 x a y b = x * a + y * b. Proof. apply wrap32_id. Qed.
Lemma add32w_id x y : -1000000000 <= x <= 1000000000 -> -1000000000 <= y <= 1000000000 -> add32w x y = x + y.
Proof. intros. unfold add32w. rewrite (J_id x), (J_id y) by lia. apply wrap32_id; lia. Qed.

(** A lane that does not wrap computes the sums of [dct1d]. *)
Definition lane_sums (first : bool) (l : nat) (d0 d1 d2 d3 d4 d5 d6 d7 : Z) : list Z :=
  let u := dct1d d0 d1 d2 d3 d4 d5 d6 d7 in
  [plain first l (u0 u); down first (u1 u); down first (u2 u); down first (u3 u); plain first l (u4 u);
   down first (u5 u); down first (u6 u); down first (u7 u)].
Lemma lane_exact first l lo hi d0 d1 d2 d3 d4 d5 d6 d7 :
  (lo = -4096 /\ hi = 4064) \/ (lo = -4080 /\ hi = 4080) ->
  lo <= d0 <= hi -> lo <= d1 <= hi -> lo <= d2 <= hi -> lo <= d3 <= hi ->
  lo <= d4 <= hi -> lo <= d5 <= hi -> lo <= d6 <= hi -> lo <= d7 <= hi ->
  lane_dct first l d0 d1 d2 d3 d4 d5 d6 d7 = lane_sums first l d0 d1 d2 d3 d4 d5 d6 d7.
Proof.
  intros H0. intros. unfold lane_dct. rewrite sign_pos.
  rewrite (add16_id d0 d7), (add16_id d1 d6), (add16_id d2 d5), (add16_id d3 d4),
    (sub16_id d0 d7), (sub16_id d1 d6), (sub16_id d2 d5), (sub16_id d3 d4) by lia.
  cbv zeta.
  rewrite (add16_id (d0 + d7) (d3 + d4)), (add16_id (d1 + d6) (d2 + d5)), (sub16_id (d0 + d7) (d3 + d4)), (sub16_id (d1 + d6) (d2 + d5)),
    (add16_id (d3 - d4) (d1 - d6)), (add16_id (d2 - d5) (d0 - d7)) by lia.
  rewrite sign_neg by lia.
  rewrite !add16_id by lia.
  unfold F_0_298, F_0_390, F_0_541, F_0_765, F_0_899, F_1_175, F_1_501, F_1_847, F_1_961, F_2_053, F_2_562, F_3_072.
  rewrite !madd2_id by lia.
  rewrite !add32w_id by lia.
  unfold lane_sums, dct1d. cbn [u0 u1 u2 u3 u4 u5 u6 u7].
  repeat (apply f_equal2; [apply f_equal; lia|]). reflexivity.
Qed.

Lemma lane_row l d0 d1 d2 d3 d4 d5 d6 d7 :
  -128 <= d0 <= 127 -> -128 <= d1 <= 127 -> -128 <= d2 <= 127 -> -128 <= d3 <= 127 ->
  -128 <= d4 <= 127 -> -128 <= d5 <= 127 -> -128 <= d6 <= 127 -> -128 <= d7 <= 127 ->
  lane_dct true l d0 d1 d2 d3 d4 d5 d6 d7 = row_pure d0 d1 d2 d3 d4 d5 d6 d7.
Proof.
  intros. rewrite (lane_exact true l (-4096) 4064) by (left + idtac; lia). unfold lane_sums, row_pure, dct1d.
  cbn [u0 u1 u2 u3 u4 u5 u6 u7]. rewrite !down_true by lia.
  unfold plain, PASS1_BITS. change (2 ^ 2) with 4. rewrite !wrap16_id by lia.
  repeat (apply f_equal2; [lia || reflexivity|]). reflexivity.
Qed.

(** Pass 2: in odd lanes the sums 0 and 4 are divided without rounding. *)
Definition col_avx2 (l : nat) (d0 d1 d2 d3 d4 d5 d6 d7 : Z) : list Z :=
  let u := dct1d d0 d1 d2 d3 d4 d5 d6 d7 in
  let q x := if Nat.even l then rdiv x 2 else x / 4 in
  [q (u0 u); rdiv (u1 u) 15; rdiv (u2 u) 15; rdiv (u3 u) 15; q (u4 u); rdiv (u5 u) 15; rdiv (u6 u) 15; rdiv (u7 u) 15].
Lemma lane_col l lo hi d0 d1 d2 d3 d4 d5 d6 d7 :
  (lo = -4096 /\ hi = 4064) \/ (lo = -4080 /\ hi = 4080) ->
  lo <= d0 <= hi -> lo <= d1 <= hi -> lo <= d2 <= hi -> lo <= d3 <= hi ->
  lo <= d4 <= hi -> lo <= d5 <= hi -> lo <= d6 <= hi -> lo <= d7 <= hi ->
  lane_dct false l d0 d1 d2 d3 d4 d5 d6 d7 = col_avx2 l d0 d1 d2 d3 d4 d5 d6 d7.
Proof.
  intros H0. intros. rewrite (lane_exact false l lo hi) by assumption. unfold lane_sums, col_avx2, dct1d.
  cbn [u0 u1 u2 u3 u4 u5 u6 u7]. rewrite !down_false by lia.
  unfold plain, PASS1_BITS, rdiv. change (2 - 1) with 1. change (2 ^ 1) with 2. change (2 ^ 2) with 4.
  change (lo16 2) with 2. change (hi16 2) with 0.
  destruct (Nat.even l); rewrite !add16_id by lia; repeat (apply f_equal2; [lia || reflexivity|]); reflexivity.
Qed.

(** ** The whole transform *)
Lemma perm20 M i j k l : mm256_permute2x128_si256 (row2 M i j) (row2 M k l) 0x20 = row2 M i k. Proof. reflexivity. Qed.
Lemma perm31 M i j k l : mm256_permute2x128_si256 (row2 M i j) (row2 M k l) 0x31 = row2 M j l. Proof. reflexivity. Qed.
Lemma perm30 M i j k l : mm256_permute2x128_si256 (row2 M i j) (row2 M k l) 0x30 = row2 M i l. Proof. reflexivity. Qed.
Lemma perm21 M i j k l : mm256_permute2x128_si256 (row2 M i j) (row2 M k l) 0x21 = row2 M j k. Proof. reflexivity. Qed.
Definition all_rows (M : matrix) : list Z := row2 M 0 1 ++ row2 M 2 3 ++ row2 M 4 5 ++ row2 M 6 7.
Lemma loads M : mm256_loadu_si256 (all_rows M) 0 = row2 M 0 1 /\ mm256_loadu_si256 (all_rows M) 1 = row2 M 2 3 /\
  mm256_loadu_si256 (all_rows M) 2 = row2 M 4 5 /\ mm256_loadu_si256 (all_rows M) 3 = row2 M 6 7.
Proof. repeat split. Qed.

Lemma fdct_avx2_lanes M :
  fdct_avx2 (all_rows M) = all_rows (dct_lanes false (tr (dct_lanes true (tr M)))).
Proof.
  unfold fdct_avx2. destruct (loads M) as (-> & -> & -> & ->).
  rewrite !perm20, !perm31, transpose_ok, dct_true, !perm20, !perm31, transpose_ok, dct_false.
  rewrite perm20, perm31, perm30, perm21. reflexivity.
Qed.

Definition block_matrix (b : list Z) : matrix := fun y x => nth (8 * y + x) b 0.
Lemma all_rows_nth b : length b = 64%nat -> all_rows (block_matrix b) = b.
Proof.
  intros H. do 64 (destruct b as [|? b]; [discriminate|]). destruct b; [|discriminate]. reflexivity.
Qed.

Definition pass1 (b : list Z) : matrix := fun y u =>
  nth u (row_pure (block_matrix b y 0%nat) (block_matrix b y 1%nat) (block_matrix b y 2%nat) (block_matrix b y 3%nat)
                  (block_matrix b y 4%nat) (block_matrix b y 5%nat) (block_matrix b y 6%nat) (block_matrix b y 7%nat)) 0.
Definition pass2 (N : matrix) : matrix := fun v u =>
  nth v (col_avx2 u (N 0 u) (N 1 u) (N 2 u) (N 3 u) (N 4 u) (N 5 u) (N 6 u) (N 7 u))%nat 0.

Lemma all_rows_ext M N : (forall i j, (i < 8)%nat -> (j < 8)%nat -> M i j = N i j) -> all_rows M = all_rows N.
Proof.
  intros H. unfold all_rows, row2.
  repeat match goal with |- context [M ?i ?j] => rewrite (H i j) by lia end. reflexivity.
Qed.
Definition avx2_pure (b : list Z) : list Z := all_rows (pass2 (pass1 b)).

Lemma all_rows_at M v u : (v < 8)%nat -> (u < 8)%nat -> nth (8 * v + u) (all_rows M) 0 = M v u.
Proof.
  intros Hv Hu. do 8 (destruct v as [|v]; [do 8 (destruct u as [|u]; [reflexivity|]); lia|]). lia.
Qed.

Lemma block_matrix_range b y x : samples_ok b -> (y < 8)%nat -> (x < 8)%nat -> -128 <= block_matrix b y x <= 127.
Proof. intros [Hl HF] Hy Hx. unfold block_matrix. rewrite Forall_forall in HF. apply HF, nth_In. lia. Qed.
Lemma pass1_range b y u : samples_ok b -> (y < 8)%nat -> (u < 8)%nat ->
  lo_of (Z.of_nat u) <= pass1 b y u <= hi_of (Z.of_nat u).
Proof.
  intros Hs Hy Hu. unfold pass1.
  destruct (row_pure_bound (block_matrix b y 0%nat) (block_matrix b y 1%nat) (block_matrix b y 2%nat) (block_matrix b y 3%nat)
    (block_matrix b y 4%nat) (block_matrix b y 5%nat) (block_matrix b y 6%nat) (block_matrix b y 7%nat)) as [H1 H0];
    try (apply block_matrix_range; [assumption|assumption|lia]).
  destruct u as [|u].
  - exact H0.
  - replace (lo_of (Z.of_nat (S u))) with (-4080) by (unfold lo_of; replace (Z.of_nat (S u) =? 0) with false by lia; reflexivity).
    replace (hi_of (Z.of_nat (S u))) with 4080 by (unfold hi_of; replace (Z.of_nat (S u) =? 0) with false by lia; reflexivity).
    rewrite Forall_forall in H1. apply H1.
    change (nth (S u) (row_pure (block_matrix b y 0%nat) (block_matrix b y 1%nat) (block_matrix b y 2%nat) (block_matrix b y 3%nat)
      (block_matrix b y 4%nat) (block_matrix b y 5%nat) (block_matrix b y 6%nat) (block_matrix b y 7%nat)) 0)
    with (nth u (tl (row_pure (block_matrix b y 0%nat) (block_matrix b y 1%nat) (block_matrix b y 2%nat) (block_matrix b y 3%nat)
      (block_matrix b y 4%nat) (block_matrix b y 5%nat) (block_matrix b y 6%nat) (block_matrix b y 7%nat))) 0).
    apply nth_In. cbn. lia.
Qed.
Lemma lo_hi u : (lo_of u = -4096 /\ hi_of u = 4064) \/ (lo_of u = -4080 /\ hi_of u = 4080).
Proof. unfold lo_of, hi_of. destruct (u =? 0); auto. Qed.

Lemma fdct_avx2_ok b : samples_ok b -> fdct_avx2 b = avx2_pure b.
Proof.
  intros Hs. rewrite <- (all_rows_nth b) at 1 by apply Hs. rewrite fdct_avx2_lanes. apply all_rows_ext. intros v u Hv Hu.
  assert (E : forall y, (y < 8)%nat -> tr (dct_lanes true (tr (block_matrix b))) y u = pass1 b y u).
  { intros y Hy. unfold tr, dct_lanes. rewrite lane_row by (apply block_matrix_range; [assumption|assumption|lia]). reflexivity. }
  unfold dct_lanes at 1. rewrite !E by lia.
  unfold pass2. f_equal.
  apply (lane_col u (lo_of (Z.of_nat u)) (hi_of (Z.of_nat u))); [apply lo_hi|..]; (apply pass1_range; [assumption|lia|assumption]).
Qed.
