(** The cosine tables over the reals: reduction of angles, rational bounds, orthogonality, and the error of the
    integer transform. *)
From Coq Require Import Reals ZArith List Lra Lia.
From Verif Require Import SDct SReal.
Import ListNotations.
Open Scope R_scope.

(** ** Sums *)
Lemma rsum8_ext f g : (forall i, (i < 8)%nat -> f i = g i) -> rsum8 f = rsum8 g.
Proof. intros H. unfold rsum8. rewrite !H by lia. reflexivity. Qed.
Lemma rsum8_plus f g : rsum8 (fun i => f i + g i) = rsum8 f + rsum8 g.
Proof. unfold rsum8. ring. Qed.
Lemma rsum8_minus f g : rsum8 (fun i => f i - g i) = rsum8 f - rsum8 g.
Proof. unfold rsum8. ring. Qed.
Lemma rsum8_scal c f : rsum8 (fun i => c * f i) = c * rsum8 f.
Proof. unfold rsum8. ring. Qed.
Lemma rsum8_swap f : rsum8 (fun i => rsum8 (fun j => f i j)) = rsum8 (fun j => rsum8 (fun i => f i j)).
Proof. unfold rsum8. ring. Qed.
Lemma rsum8_le f g : (forall i, (i < 8)%nat -> f i <= g i) -> rsum8 f <= rsum8 g.
Proof.
  intros H. unfold rsum8.
  pose proof (H 0%nat ltac:(lia)). pose proof (H 1%nat ltac:(lia)). pose proof (H 2%nat ltac:(lia)). pose proof (H 3%nat ltac:(lia)).
  pose proof (H 4%nat ltac:(lia)). pose proof (H 5%nat ltac:(lia)). pose proof (H 6%nat ltac:(lia)). pose proof (H 7%nat ltac:(lia)). lra.
Qed.
Lemma rsum8_abs f : Rabs (rsum8 f) <= rsum8 (fun i => Rabs (f i)).
Proof.
  unfold rsum8. repeat (eapply Rle_trans; [apply Rabs_triang|]; apply Rplus_le_compat_r). apply Rle_refl.
Qed.
Lemma rsum8_IZR f : IZR (sum8 f) = rsum8 (fun i => IZR (f i)).
Proof. unfold sum8, rsum8. rewrite !plus_IZR. reflexivity. Qed.

(** ** Angles *)
Definition ck (k : Z) : R := cos (IZR k * PI / 16).
Lemma ck_opp k : ck (- k) = ck k.
Proof. unfold ck. rewrite opp_IZR. replace (- IZR k * PI / 16) with (- (IZR k * PI / 16)) by field. apply cos_neg. Qed.
Lemma ck_period k : ck (k + 32) = ck k.
Proof.
  unfold ck. rewrite plus_IZR. replace ((IZR k + 32) * PI / 16) with (IZR k * PI / 16 + 2 * PI) by field.
  apply cos_period with (k := 1%nat) || (rewrite cos_plus, cos_2PI, sin_2PI; ring).
Qed.
Lemma ck_flip k : ck (16 - k) = - ck k.
Proof.
  unfold ck. rewrite minus_IZR. replace ((16 - IZR k) * PI / 16) with (PI - IZR k * PI / 16) by field.
  rewrite cos_minus, cos_PI, sin_PI. ring.
Qed.
Lemma ck_periods k n : ck (k + 32 * Z.of_nat n) = ck k.
Proof.
  induction n as [|n IH]; [f_equal; lia|]. rewrite <- IH, <- (ck_period (k + 32 * Z.of_nat n)). f_equal. lia.
Qed.
Lemma ck_mod k : (0 <= k)%Z -> ck k = ck (k mod 32).
Proof.
  intros H. pose proof (Z.div_mod k 32 ltac:(lia)) as E. assert (0 <= k / 32)%Z by (apply Z.div_pos; lia).
  rewrite E at 1. replace (32 * (k / 32) + k mod 32)%Z with (k mod 32 + 32 * Z.of_nat (Z.to_nat (k / 32)))%Z by lia. apply ck_periods.
Qed.
Definition fold1 (k : Z) : Z * Z :=
  let m := (k mod 32)%Z in let m := (if 16 <? m then 32 - m else m)%Z in
  if (8 <? m)%Z then (-1, 16 - m)%Z else (1, m)%Z.
Lemma ck_fold k : (0 <= k)%Z -> ck k = IZR (fst (fold1 k)) * ck (snd (fold1 k)).
Proof.
  intros H. rewrite (ck_mod k H). unfold fold1. set (m := (k mod 32)%Z).
  assert (E : ck m = ck (if (16 <? m)%Z then 32 - m else m)%Z).
  { destruct (16 <? m)%Z; [|reflexivity]. rewrite <- (ck_opp m), <- (ck_period (- m)). f_equal. lia. }
  rewrite E. set (n := (if (16 <? m)%Z then 32 - m else m)%Z). cbv zeta. destruct (8 <? n)%Z; cbn [fst snd].
  - replace n with (16 - (16 - n))%Z at 1 by lia. rewrite ck_flip. lra.
  - lra.
Qed.

Lemma ck_prod i j : ck i * ck j = / 2 * (ck (i + j) + ck (i - j)).
Proof.
  unfold ck. rewrite plus_IZR, minus_IZR.
  replace ((IZR i + IZR j) * PI / 16) with (IZR i * PI / 16 + IZR j * PI / 16) by field.
  replace ((IZR i - IZR j) * PI / 16) with (IZR i * PI / 16 - IZR j * PI / 16) by field.
  rewrite cos_plus, cos_minus. field.
Qed.
Lemma ck_0 : ck 0 = 1.
Proof. unfold ck. replace (0 * PI / 16) with 0 by field. apply cos_0. Qed.
Lemma ck_8 : ck 8 = 0.
Proof. unfold ck. replace (8 * PI / 16) with (PI / 2) by field. apply cos_PI2. Qed.
Lemma ck_square k : ck k * ck k = / 2 * (1 + ck (2 * k)).
Proof. rewrite ck_prod. replace (k - k)%Z with 0%Z by lia. rewrite ck_0. replace (k + k)%Z with (2 * k)%Z by lia. lra. Qed.
Lemma ck_pos k : (0 <= k < 8)%Z -> 0 < ck k.
Proof.
  intros H. unfold ck. apply cos_gt_0; pose proof PI_RGT_0 as HP; pose proof (IZR_le 0 k ltac:(lia)); pose proof (IZR_lt k 8 ltac:(lia)); nra.
Qed.

Lemma sq_le a b : 0 <= b -> a * a <= b * b -> a <= b.
Proof. intros Hb H. destruct (Rle_lt_dec a b) as [|C]; [assumption|]. nra. Qed.

(** Rational enclosures of the cosines. *)
Ltac enclose k :=
  pose proof (ck_pos k ltac:(lia)); pose proof (ck_square k);
  split; apply sq_le; try lra.
Lemma c4_bounds : 707106781186 / 1000000000000 <= ck 4 <= 707106781187 / 1000000000000.
Proof. pose proof (ck_pos 4 ltac:(lia)). pose proof (ck_square 4) as E. change (2 * 4)%Z with 8%Z in E. rewrite ck_8 in E.
  split; apply sq_le; lra. Qed.
Lemma c2_bounds : 923879532 / 1000000000 <= ck 2 <= 923879533 / 1000000000.
Proof. pose proof (ck_pos 2 ltac:(lia)). pose proof (ck_square 2) as E. change (2 * 2)%Z with 4%Z in E. pose proof c4_bounds.
  split; apply sq_le; lra. Qed.
Lemma c6_bounds : 382683432 / 1000000000 <= ck 6 <= 382683433 / 1000000000.
Proof. pose proof (ck_pos 6 ltac:(lia)). pose proof (ck_square 6) as E. change (2 * 6)%Z with (16 - 4)%Z in E. rewrite ck_flip in E.
  pose proof c4_bounds. split; apply sq_le; lra. Qed.
(** Times 8192 sqrt 2. *)
Definition scale : R := 8192 * sqrt 2.
Lemma sqrt2_sq : sqrt 2 * sqrt 2 = 2.
Proof. apply sqrt_sqrt. lra. Qed.
Lemma sqrt2_pos : 0 < sqrt 2.
Proof. apply sqrt_lt_R0. lra. Qed.
Lemma scaled_square k : (scale * ck k) * (scale * ck k) = 8192 * 8192 * (1 + ck (2 * k)).
Proof.
  pose proof (ck_square k) as E. pose proof sqrt2_sq as Hs.
  replace (scale * ck k * (scale * ck k)) with (8192 * 8192 * ((sqrt 2 * sqrt 2) * (ck k * ck k))) by (unfold scale; ring).
  rewrite Hs, E. field.
Qed.
Lemma scaled_pos k : (0 <= k < 8)%Z -> 0 < scale * ck k.
Proof. intros H. apply Rmult_lt_0_compat; [|now apply ck_pos]. unfold scale. pose proof sqrt2_pos. lra. Qed.
Lemma b4 : scale * ck 4 = 8192.
Proof.
  pose proof (scaled_square 4) as E. change (2 * 4)%Z with 8%Z in E. rewrite ck_8 in E. pose proof (scaled_pos 4 ltac:(lia)).
  apply Rle_antisym; apply sq_le; lra.
Qed.
Lemma b1 : 11362630 / 1000 <= scale * ck 1 <= 11362631 / 1000.
Proof. pose proof (scaled_square 1) as E. change (2 * 1)%Z with 2%Z in E. pose proof (scaled_pos 1 ltac:(lia)). pose proof c2_bounds. split; apply sq_le; lra. Qed.
Lemma b2 : 10703363 / 1000 <= scale * ck 2 <= 10703364 / 1000.
Proof. pose proof (scaled_square 2) as E. change (2 * 2)%Z with 4%Z in E. pose proof (scaled_pos 2 ltac:(lia)). pose proof c4_bounds. split; apply sq_le; lra. Qed.
Lemma b3 : 9632772 / 1000 <= scale * ck 3 <= 9632773 / 1000.
Proof. pose proof (scaled_square 3) as E. change (2 * 3)%Z with 6%Z in E. pose proof (scaled_pos 3 ltac:(lia)). pose proof c6_bounds. split; apply sq_le; lra. Qed.
Lemma b5 : 6436413 / 1000 <= scale * ck 5 <= 6436414 / 1000.
Proof. pose proof (scaled_square 5) as E. change (2 * 5)%Z with (16 - 6)%Z in E. rewrite ck_flip in E. pose proof (scaled_pos 5 ltac:(lia)). pose proof c6_bounds. split; apply sq_le; lra. Qed.
Lemma b6 : 4433478 / 1000 <= scale * ck 6 <= 4433479 / 1000.
Proof. pose proof (scaled_square 6) as E. change (2 * 6)%Z with (16 - 4)%Z in E. rewrite ck_flip in E. pose proof (scaled_pos 6 ltac:(lia)). pose proof c4_bounds. split; apply sq_le; lra. Qed.
Lemma b7 : 2260167 / 1000 <= scale * ck 7 <= 2260168 / 1000.
Proof. pose proof (scaled_square 7) as E. change (2 * 7)%Z with (16 - 2)%Z in E. rewrite ck_flip in E. pose proof (scaled_pos 7 ltac:(lia)). pose proof c2_bounds. split; apply sq_le; lra. Qed.

(** ** Basis functions, scaled to integers' size *)
Definition ang (u x : nat) : Z := ((2 * Z.of_nat x + 1) * Z.of_nat u)%Z.
Lemma dct_cos_ck x u : dct_cos x u = ck (ang u x).
Proof. unfold dct_cos, ck, ang. rewrite mult_IZR, plus_IZR, mult_IZR, <- !INR_IZR_INZ. reflexivity. Qed.
Definition basis (u x : nat) : R := dct_c u * sqrt 2 * dct_cos x u.
Lemma basis_0 x : basis 0 x = 1.
Proof.
  unfold basis, dct_cos, dct_c. replace ((2 * INR x + 1) * INR 0 * PI / 16) with 0 by (simpl; field). rewrite cos_0.
  pose proof sqrt2_pos. field. lra.
Qed.
Lemma basis_S u x : (1 <= u)%nat -> 8192 * basis u x = IZR (fst (fold1 (ang u x))) * (scale * ck (snd (fold1 (ang u x)))).
Proof.
  intros H. unfold basis. rewrite dct_cos_ck, (ck_fold (ang u x)) by (unfold ang; lia).
  destruct u; [lia|]. unfold dct_c, scale. ring.
Qed.

Lemma exact_dct_basis s v u : 8 * exact_dct s v u = rsum8 (fun y => basis v y * rsum8 (fun x => basis u x * s y x)).
Proof.
  unfold exact_dct. rewrite rsum8_swap. rewrite <- !rsum8_scal. apply rsum8_ext. intros y _.
  rewrite <- !rsum8_scal. apply rsum8_ext. intros x _. unfold basis. pose proof sqrt2_sq as Hs.
  transitivity (sqrt 2 * sqrt 2 * (dct_c u * dct_c v * (s y x * dct_cos x u * dct_cos y v))); [rewrite Hs; field|ring].
Qed.

(** Deviation of the integer matrix, in thousandths. *)
Definition dev : list (list Z) :=
  [[0; 0; 0; 0; 0; 0; 0; 0];
   [370; 228; 587; 168; 168; 587; 228; 370];
   [364; 479; 479; 364; 364; 479; 479; 364];
   [228; 1168; 631; 414; 414; 631; 1168; 228];
   [0; 0; 0; 0; 0; 0; 0; 0];
   [587; 631; 833; 228; 228; 833; 631; 587];
   [479; 637; 637; 479; 479; 637; 637; 479];
   [168; 414; 228; 370; 370; 228; 414; 168]]%Z.
Definition dev_entry (u x : nat) : R := IZR (nth x (nth u dev []) 0%Z) / 1000.

Ltac entry :=
  unfold dev_entry;
  repeat match goal with |- context [fold1 ?a] => let r := eval vm_compute in (fold1 a) in change (fold1 a) with r; cbn [fst snd] end;
  repeat match goal with |- context [dct_entry ?a ?b] => let r := eval vm_compute in (dct_entry a b) in change (dct_entry a b) with r end;
  repeat match goal with |- context [nth ?a ?b ?c] => let r := eval vm_compute in (nth a b c) in change (nth a b c) with r end;
  lra.
Lemma matrix_close u x : (u < 8)%nat -> (x < 8)%nat -> Rabs (IZR (dct_entry u x) - 8192 * basis u x) <= dev_entry u x.
Proof.
  intros Hu Hx. pose proof b1 as B1. pose proof b2 as B2. pose proof b3 as B3. pose proof b4 as B4. pose proof b5 as B5. pose proof b6 as B6. pose proof b7 as B7.
  apply Rabs_le. destruct u as [|u].
  - rewrite basis_0. do 8 (destruct x as [|x]; [entry|]). lia.
  - rewrite basis_S by lia.
    do 7 (destruct u as [|u]; [do 8 (destruct x as [|x]; [entry|]); lia|]). lia.
Qed.

(** ** Error of the integer transform *)
Lemma round_shift_close z n : (1 <= n)%Z -> Rabs (IZR (round_shift z n) - IZR z / IZR (2 ^ n)) <= / 2.
Proof.
  intros Hn. unfold round_shift.
  assert (E : (2 ^ n = 2 * 2 ^ (n - 1))%Z) by (replace n with (1 + (n - 1))%Z at 1 by lia; rewrite Z.pow_add_r by lia; reflexivity).
  assert (Hp : (0 < 2 ^ (n - 1))%Z) by (apply Z.pow_pos_nonneg; lia). set (h := (2 ^ (n - 1))%Z) in *. rewrite E. clearbody h.
  pose proof (Z.div_mod (z + h) (2 * h) ltac:(lia)) as D. pose proof (Z.mod_pos_bound (z + h) (2 * h) ltac:(lia)) as B.
  set (q := ((z + h) / (2 * h))%Z) in *. set (r := ((z + h) mod (2 * h))%Z) in *. clearbody q r.
  assert (Hz : (z = 2 * h * q + r - h)%Z) by lia. subst z. rewrite !minus_IZR, !plus_IZR, !mult_IZR.
  apply IZR_lt in Hp. destruct B as [B1 B2]. apply IZR_le in B1. apply IZR_lt in B2. rewrite mult_IZR in B2.
  replace (IZR q - (2 * IZR h * IZR q + IZR r - IZR h) / (2 * IZR h)) with ((IZR h - IZR r) / (2 * IZR h)) by (field; lra).
  apply Rabs_le. split.
  - apply Rmult_le_reg_r with (2 * IZR h); [lra|]. unfold Rdiv. rewrite Rmult_assoc, Rinv_l by lra. lra.
  - apply Rmult_le_reg_r with (2 * IZR h); [lra|]. unfold Rdiv. rewrite Rmult_assoc, Rinv_l by lra. lra.
Qed.

(** The rows of [dev] and of the integer matrix, added up. *)
Definition dev_row (u : nat) : R := rsum8 (dev_entry u).
Definition abs_row (v : nat) : R := rsum8 (fun y => Rabs (IZR (dct_entry v y))).

Lemma tri3 (a b c : R) : Rabs (a - c) <= Rabs (a - b) + Rabs (b - c).
Proof. replace (a - c) with ((a - b) + (b - c)) by ring. apply Rabs_triang. Qed.
Lemma split_rows (m b r : nat -> R) :
  rsum8 (fun x => m x * r x) / 2048 - 4 * rsum8 (fun x => b x * r x) = rsum8 (fun x => (m x - 8192 * b x) * r x / 2048).
Proof. unfold rsum8. field. Qed.
Lemma split_cols (m b r e : nat -> R) :
  rsum8 (fun y => m y * r y) / 32768 - rsum8 (fun y => b y * e y)
  = rsum8 (fun y => (m y * (r y - 4 * e y) + (m y - 8192 * b y) * (4 * e y)) / 32768).
Proof. unfold rsum8. field. Qed.
Lemma join_cols (m d : nat -> R) k e :
  rsum8 (fun y => (m y * k + d y * e) / 32768) = rsum8 m * k / 32768 + rsum8 d * e / 32768.
Proof. unfold rsum8. field. Qed.

Section Error.
  Variable s : nat -> nat -> Z.
  Hypothesis s_range : forall y x, (y < 8)%nat -> (x < 8)%nat -> (-128 <= s y x <= 127)%Z.
  Let rs (y x : nat) : R := IZR (s y x).
  Lemma s_abs y x : (y < 8)%nat -> (x < 8)%nat -> Rabs (rs y x) <= 128.
  Proof.
    intros Hy Hx. pose proof (s_range y x Hy Hx) as [L U]. apply IZR_le in L. apply IZR_le in U. unfold rs. apply Rabs_le. lra.
  Qed.
  Definition exact_row (y u : nat) : R := rsum8 (fun x => basis u x * rs y x).
  (** Rounding of the first pass: none for u = 0 and u = 4. *)
  Definition row_rounding (u : nat) : R := match u with 0%nat | 4%nat => 0 | _ => / 2 end.
  Definition row_error (u : nat) : R := row_rounding u + dev_row u / 16.

  Lemma row_rounded y u : (u < 8)%nat ->
    Rabs (IZR (row_dct s y u) - IZR (sum8 (fun x => (dct_entry u x * s y x)%Z)) / 2048) <= row_rounding u.
  Proof.
    intros Hu. unfold row_dct.
    assert (G : Rabs (IZR (round_shift (sum8 (fun x => (dct_entry u x * s y x)%Z)) 11) - IZR (sum8 (fun x => (dct_entry u x * s y x)%Z)) / 2048) <= / 2)
      by (apply (round_shift_close _ 11); lia).
    assert (X : forall t, (round_shift (8192 * t) 11 = 4 * t)%Z).
    { intros t. unfold round_shift. change (2 ^ (11 - 1))%Z with 1024%Z. change (2 ^ 11)%Z with 2048%Z.
      replace (8192 * t + 1024)%Z with (1024 + 4 * t * 2048)%Z by lia. rewrite Z.div_add by lia. reflexivity. }
    assert (Y : forall t, Rabs (IZR (round_shift (8192 * t) 11) - IZR (8192 * t) / 2048) <= 0).
    { intros t. rewrite X, !mult_IZR. replace (4 * IZR t - 8192 * IZR t / 2048) with 0 by field. rewrite Rabs_R0. lra. }
    destruct u as [|[|[|[|[|u]]]]]; try exact G.
    - cbn [row_rounding].
      replace (sum8 (fun x => dct_entry 0 x * s y x)%Z)%Z with (8192 * sum8 (fun x => s y x))%Z by (unfold sum8, dct_entry; cbn [nth dct_matrix]; lia).
      apply Y.
    - cbn [row_rounding].
      replace (sum8 (fun x => dct_entry 4 x * s y x)%Z)%Z with (8192 * (s y 0%nat - s y 1%nat - s y 2%nat + s y 3%nat + s y 4%nat - s y 5%nat - s y 6%nat + s y 7%nat))%Z
        by (unfold sum8, dct_entry; cbn [nth dct_matrix]; lia).
      apply Y.
  Qed.

  Lemma row_close y u : (y < 8)%nat -> (u < 8)%nat -> Rabs (IZR (row_dct s y u) - 4 * exact_row y u) <= row_error u.
  Proof.
    intros Hy Hu. pose proof (row_rounded y u Hu) as A. set (t := sum8 _) in A.
    assert (B : Rabs (IZR t / 2048 - 4 * exact_row y u) <= dev_row u / 16).
    { unfold t. rewrite rsum8_IZR.
      rewrite (rsum8_ext _ (fun x => IZR (dct_entry u x) * rs y x)) by (intros; apply mult_IZR).
      unfold exact_row. rewrite split_rows.
      eapply Rle_trans; [apply rsum8_abs|]. unfold dev_row.
      replace (rsum8 (dev_entry u) / 16) with (rsum8 (fun x => dev_entry u x * 128 / 2048)) by (unfold rsum8; field).
      apply rsum8_le. intros x Hx. pose proof (matrix_close u x Hu Hx) as M. pose proof (s_abs y x Hy Hx) as S.
      unfold Rdiv. rewrite !Rabs_mult, (Rabs_pos_eq (/ 2048)) by lra.
      apply Rmult_le_compat_r; [lra|]. apply Rmult_le_compat; auto using Rabs_pos. }
    unfold row_error. pose proof (tri3 (IZR (row_dct s y u)) (IZR t / 2048) (4 * exact_row y u)) as T. lra.
  Qed.

  Lemma exact_row_abs y u : (y < 8)%nat -> (u < 8)%nat -> 4 * Rabs (exact_row y u) <= (abs_row u + dev_row u) / 16.
  Proof.
    intros Hy Hu.
    assert (E : Rabs (exact_row y u) <= rsum8 (fun x => (Rabs (IZR (dct_entry u x)) + dev_entry u x) / 64)).
    { eapply Rle_trans; [apply rsum8_abs|]. apply rsum8_le. intros x Hx.
      pose proof (matrix_close u x Hu Hx) as M. pose proof (s_abs y x Hy Hx) as S. rewrite Rabs_mult.
      assert (K : 8192 * Rabs (basis u x) <= Rabs (IZR (dct_entry u x)) + dev_entry u x).
      { rewrite <- (Rabs_pos_eq 8192) by lra. rewrite <- Rabs_mult. set (m := IZR (dct_entry u x)) in *. set (b := 8192 * basis u x) in *.
        pose proof (Rabs_triang (b - m) m) as T. replace (b - m + m) with b in T by ring. rewrite Rabs_minus_sym in M. lra. }
      pose proof (Rabs_pos (basis u x)). pose proof (Rabs_pos (rs y x)). nra. }
    unfold abs_row, dev_row. unfold rsum8 in *. lra.
  Qed.

  Definition total_error (v u : nat) : R :=
    / 2 + abs_row v * row_error u / 32768 + dev_row v * ((abs_row u + dev_row u) / 16) / 32768.
  Lemma dct_close v u : (v < 8)%nat -> (u < 8)%nat -> Rabs (IZR (int_dct s v u) - 8 * exact_dct rs v u) <= total_error v u.
  Proof.
    intros Hv Hu. unfold int_dct. set (t := sum8 _).
    assert (A : Rabs (IZR (round_shift t 15) - IZR t / 32768) <= / 2) by (apply (round_shift_close _ 15); lia).
    rewrite exact_dct_basis. fold (exact_row). change (fun y => basis v y * rsum8 (fun x => basis u x * rs y x)) with (fun y => basis v y * exact_row y u).
    assert (B : Rabs (IZR t / 32768 - rsum8 (fun y => basis v y * exact_row y u))
      <= rsum8 (fun y => (Rabs (IZR (dct_entry v y)) * row_error u + dev_entry v y * ((abs_row u + dev_row u) / 16)) / 32768)).
    { unfold t. rewrite rsum8_IZR.
      rewrite (rsum8_ext _ (fun y => IZR (dct_entry v y) * IZR (row_dct s y u))) by (intros; apply mult_IZR).
      rewrite split_cols.
      eapply Rle_trans; [apply rsum8_abs|]. apply rsum8_le. intros y Hy.
      pose proof (matrix_close v y Hv Hy) as M. pose proof (row_close y u Hy Hu) as R1. pose proof (exact_row_abs y u Hy Hu) as R2.
      unfold Rdiv at 1 3. rewrite Rabs_mult, (Rabs_pos_eq (/ 32768)) by lra. apply Rmult_le_compat_r; [lra|].
      eapply Rle_trans; [apply Rabs_triang|]. rewrite !Rabs_mult, (Rabs_pos_eq 4) by lra.
      apply Rplus_le_compat; apply Rmult_le_compat; auto using Rabs_pos; try lra.
      pose proof (Rabs_pos (exact_row y u)). lra. }
    pose proof (tri3 (IZR (round_shift t 15)) (IZR t / 32768) (rsum8 (fun y => basis v y * exact_row y u))) as T.
    rewrite (join_cols (fun y => Rabs (IZR (dct_entry v y))) (dev_entry v)) in B.
    change (rsum8 (fun y => Rabs (IZR (dct_entry v y)))) with (abs_row v) in B. change (rsum8 (dev_entry v)) with (dev_row v) in B.
    set (X := rsum8 (fun y => basis v y * exact_row y u)) in *. set (a := IZR (round_shift t 15)) in *. set (b := IZR t / 32768) in *. clearbody X a b.
    unfold total_error. set (p := abs_row v * row_error u / 32768) in *. set (q := dev_row v * _ / 32768) in *. clearbody p q. lra.
  Qed.
End Error.

Lemma dev_row_values : map (fun u => sum8 (fun x => nth x (nth u dev []) 0%Z)) (seq 0 8) = [0; 2706; 3372; 4882; 0; 4558; 4464; 2360]%Z.
Proof. reflexivity. Qed.
Lemma abs_row_values : map (fun v => sum8 (fun y => Z.abs (dct_entry v y))) (seq 0 8) = [65536; 59386; 60544; 59380; 65536; 59386; 60548; 59384]%Z.
Proof. reflexivity. Qed.
Lemma dev_row_eq u : dev_row u = IZR (sum8 (fun x => nth x (nth u dev []) 0%Z)) / 1000.
Proof. unfold dev_row, dev_entry. rewrite rsum8_IZR. unfold rsum8. field. Qed.
Lemma abs_row_eq v : abs_row v = IZR (sum8 (fun y => Z.abs (dct_entry v y))).
Proof. unfold abs_row. rewrite rsum8_IZR. apply rsum8_ext. intros. now rewrite abs_IZR. Qed.

Ltac rows_num := repeat match goal with
  | |- context [sum8 ?f] => let r := eval vm_compute in (sum8 f) in change (sum8 f) with r end.
Lemma total_error_bound v u : (v < 8)%nat -> (u < 8)%nat -> total_error v u <= 252 / 100.
Proof.
  intros Hv Hu. unfold total_error, row_error. rewrite !dev_row_eq, !abs_row_eq.
  do 8 (destruct v as [|v]; [do 8 (destruct u as [|u]; [rows_num; cbn [row_rounding]; lra|]); lia|]). lia.
Qed.
(** The four coefficients without products *)
Lemma total_error_flat v u : (v = 0 \/ v = 4)%nat -> (u = 0 \/ u = 4)%nat -> total_error v u = / 2.
Proof.
  intros Hv Hu. unfold total_error, row_error. rewrite !dev_row_eq, !abs_row_eq.
  destruct Hv as [-> | ->], Hu as [-> | ->]; rows_num; cbn [row_rounding]; lra.
Qed.
Lemma total_error_rows v u : (v = 0 \/ v = 4)%nat -> (u < 8)%nat -> total_error v u <= 212 / 100.
Proof.
  intros Hv Hu. unfold total_error, row_error. rewrite !dev_row_eq, !abs_row_eq.
  destruct Hv as [-> | ->]; (do 8 (destruct u as [|u]; [rows_num; cbn [row_rounding]; lra|])); lia.
Qed.
