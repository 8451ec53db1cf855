(** Proofs for C73: the transforms and the quantizer under small changes. *)
From Verif Require Import T81 SImage SDct SAvx2 SReal SEncode SStable ThmQuant PMove.
From Coq Require Import ZArith List Bool Lia ZifyBool ZifyNat.
Import ListNotations.
Open Scope Z_scope.

Lemma sum_minus (M : nat -> nat -> Z) s1 s2 v u :
  sum8 (fun y => M v y * sum8 (fun x => M u x * s2 y x)) - sum8 (fun y => M v y * sum8 (fun x => M u x * s1 y x)) =
  sum8 (fun y => M v y * sum8 (fun x => M u x * (s2 y x - s1 y x))).
Proof. unfold sum8. ring. Qed.
Lemma exact_minus s1 s2 v u : exact s2 v u - exact s1 v u = exact (fun y x => s2 y x - s1 y x) v u.
Proof. exact (sum_minus dct_entry s1 s2 v u). Qed.
Lemma entry_bound v y : (v < 8)%nat -> (y < 8)%nat -> Z.abs (dct_entry v y) <= 11363.
Proof.
  intros Hv Hy. assert (A : forallb (fun v => forallb (fun y => Z.abs (dct_entry v y) <=? 11363) (seq 0 8)) (seq 0 8) = true) by (vm_compute; reflexivity).
  rewrite forallb_forall in A. specialize (A v ltac:(apply in_seq; lia)). rewrite forallb_forall in A. apply Z.leb_le, A, in_seq. lia.
Qed.
Lemma sum_total v (g : nat -> Z) : (v < 8)%nat -> Z.abs (sum8 (fun y => dct_entry v y * g y)) <= 11363 * sum8 (fun y => Z.abs (g y)).
Proof.
  intros Hv.
  assert (K : forall y, (y < 8)%nat -> Z.abs (dct_entry v y * g y) <= 11363 * Z.abs (g y)).
  { intros y Hy. rewrite Z.abs_mul. apply Z.mul_le_mono_nonneg_r; [apply Z.abs_nonneg|now apply entry_bound]. }
  pose proof (K 0%nat ltac:(lia)) as K0. pose proof (K 1%nat ltac:(lia)) as K1. pose proof (K 2%nat ltac:(lia)) as K2. pose proof (K 3%nat ltac:(lia)) as K3.
  pose proof (K 4%nat ltac:(lia)) as K4. pose proof (K 5%nat ltac:(lia)) as K5. pose proof (K 6%nat ltac:(lia)) as K6. pose proof (K 7%nat ltac:(lia)) as K7. clear K.
  unfold sum8. generalize dependent (dct_entry v). intros d K0 K1 K2 K3 K4 K5 K6 K7.
  repeat match goal with |- context [d ?n * g ?m] => generalize dependent (d n * g m); intros end.
  repeat match goal with |- context [Z.abs (g ?m)] => generalize dependent (Z.abs (g m)); intros end. lia.
Qed.
Lemma sum_mono f g : (forall y, (y < 8)%nat -> f y <= g y) -> sum8 f <= sum8 g.
Proof.
  intros K. pose proof (K 0%nat ltac:(lia)) as K0. pose proof (K 1%nat ltac:(lia)) as K1. pose proof (K 2%nat ltac:(lia)) as K2. pose proof (K 3%nat ltac:(lia)) as K3.
  pose proof (K 4%nat ltac:(lia)) as K4. pose proof (K 5%nat ltac:(lia)) as K5. pose proof (K 6%nat ltac:(lia)) as K6. pose proof (K 7%nat ltac:(lia)) as K7. clear K. unfold sum8. lia.
Qed.
Lemma sum_factor k f : sum8 (fun y => k * f y) = k * sum8 f.
Proof. unfold sum8. ring. Qed.
Lemma exact_total s v u : (v < 8)%nat -> (u < 8)%nat -> Z.abs (exact s v u) <= 129117769 * sum8 (fun y => sum8 (fun x => Z.abs (s y x))).
Proof.
  intros Hv Hu. unfold exact. pose proof (sum_total v (fun y => sum8 (fun x => dct_entry u x * s y x)) Hv) as A. cbv beta in A.
  pose proof (sum_mono (fun y => Z.abs (sum8 (fun x => dct_entry u x * s y x))) (fun y => 11363 * sum8 (fun x => Z.abs (s y x)))
    ltac:(intros y _; apply (sum_total u (s y) Hu))) as B. rewrite (sum_factor 11363) in B.
  revert A B. generalize (sum8 (fun y => Z.abs (sum8 (fun x => dct_entry u x * s y x)))) (sum8 (fun y => sum8 (fun x => Z.abs (s y x)))).
  generalize (Z.abs (sum8 (fun y => dct_entry v y * sum8 (fun x => dct_entry u x * s y x)))). intros a b c A B. lia.
Qed.
Lemma near_change T s1 s2 v u e t : near_exact T -> (v < 8)%nat -> (u < 8)%nat ->
  (forall y x, (y < 8)%nat -> (x < 8)%nat -> Z.abs (s2 y x - s1 y x) <= e) ->
  sum8 (fun y => sum8 (fun x => Z.abs (s2 y x - s1 y x))) <= t ->
  Z.abs (T s2 v u - T s1 v u) <= 64 * e + 4 /\ Z.abs (T s2 v u - T s1 v u) <= 2 * t + 4.
Proof.
  intros N Hv Hu HE HT. pose proof (N s1 v u Hv Hu) as A. pose proof (N s2 v u Hv Hu) as B. pose proof (exact_minus s1 s2 v u) as X.
  pose proof (exact_total (fun y x => s2 y x - s1 y x) v u Hv Hu) as C. cbv beta in C.
  assert (D : - (65536 * (65536 * e)) <= exact (fun y x => s2 y x - s1 y x) v u <= 65536 * (65536 * e)).
  { unfold exact. apply (sum_bound v (fun y => sum8 (fun x => dct_entry u x * (s2 y x - s1 y x))) (65536 * e) Hv).
    intros y Hy. apply (sum_bound u (fun x => s2 y x - s1 y x) e Hu). intros x Hx. pose proof (HE y x Hy Hx). lia. }
  clear HE. rewrite <- X in C, D. clear X. revert A B C D HT. generalize (exact s1 v u) (exact s2 v u) (T s1 v u) (T s2 v u) (sum8 (fun y => sum8 (fun x => Z.abs (s2 y x - s1 y x)))).
  intros x1 x2 t1 t2 c A B C D HT. change (2 ^ 27) with 134217728 in *. change (2 ^ 26) with 67108864 in *. assert (0 <= c) by lia. split; lia.
Qed.
(** Two values that differ by at most [d] are quantized to values that differ by at most d plus two steps, in units of 1/8. *)
Lemma quantize_change q a b d : 1 <= q <= 2048 -> -8194 <= a <= 8194 -> -8194 <= b <= 8194 -> Z.abs (b - a) <= d + 4 ->
  8 * Z.abs (q * int_quantize (8 * q) b - q * int_quantize (8 * q) a) <= d + 16 * q.
Proof.
  intros Hq Ha Hb D. destruct (Z.eq_dec q 1) as [->|N].
  - change (8 * 1) with (2 ^ 3). rewrite !C15_exact_powers by lia. unfold nearest. change (2 ^ 3) with 8. change (8 / 2) with 4.
    destruct (Z.lt_trichotomy a 0) as [A|[A|A]], (Z.lt_trichotomy b 0) as [B|[B|B]];
      rewrite ?(Z.sgn_neg a), ?(Z.sgn_pos a), ?(Z.sgn_neg b), ?(Z.sgn_pos b) by assumption; subst; cbn [Z.sgn]; lia.
  - pose proof (C15_error (8 * q) a ltac:(lia)) as E1. pose proof (C15_error (8 * q) b ltac:(lia)) as E2.
    replace (8 * q / 2) with (4 * q) in E1, E2 by (replace (8 * q) with (4 * q * 2) by ring; symmetry; apply Z.div_mul; lia).
    set (x := int_quantize (8 * q) a) in *. set (y := int_quantize (8 * q) b) in *. clearbody x y.
    assert (G : forall z, -8194 <= z <= 8194 -> (Z.abs z + 4 * q + 1) * (8 * q) <= 131096 * q).
    { intros z Hz. assert (K : Z.abs z + 4 * q + 1 <= 16385 + 2) by lia. apply (Z.mul_le_mono_nonneg_r _ _ (8 * q)) in K; lia. }
    pose proof (G a Ha) as G1. pose proof (G b Hb) as G2. clear G.
    assert (K1 : 65536 * Z.abs (a - x * (8 * q)) <= 65536 + 393240 * q) by lia.
    assert (K2 : 65536 * Z.abs (b - y * (8 * q)) <= 65536 + 393240 * q) by lia. clear E1 E2 G1 G2.
    replace (x * (8 * q)) with (8 * (q * x)) in K1 by ring. replace (y * (8 * q)) with (8 * (q * y)) in K2 by ring.
    generalize dependent (q * x). generalize dependent (q * y). intros Y K2 X K1. lia.
Qed.
Lemma close_coefficient T s1 s2 v u q e t : near_exact T -> 1 <= q <= 2048 -> (v < 8)%nat -> (u < 8)%nat ->
  (forall y x, (y < 8)%nat -> (x < 8)%nat -> -128 <= s1 y x <= 127) -> (forall y x, (y < 8)%nat -> (x < 8)%nat -> -128 <= s2 y x <= 127) ->
  (forall y x, (y < 8)%nat -> (x < 8)%nat -> Z.abs (s2 y x - s1 y x) <= e) ->
  sum8 (fun y => sum8 (fun x => Z.abs (s2 y x - s1 y x))) <= t ->
  let a := int_quantize (8 * q) (T s1 v u) in let b := int_quantize (8 * q) (T s2 v u) in
  Z.abs (q * b - q * a) <= 8 * e + 2 * q /\ 4 * Z.abs (q * b - q * a) <= t + 8 * q.
Proof.
  intros N Hq Hv Hu R1 R2 HE HT a b. destruct (near_change T s1 s2 v u e t N Hv Hu HE HT) as [C1 C2].
  pose proof (near_range T s1 v u N Hv Hu R1) as Q1. pose proof (near_range T s2 v u N Hv Hu R2) as Q2.
  pose proof (quantize_change q (T s1 v u) (T s2 v u) (64 * e) Hq Q1 Q2 C1) as S1.
  pose proof (quantize_change q (T s1 v u) (T s2 v u) (2 * t) Hq Q1 Q2 C2) as S2. fold a b in S1, S2. clear - S1 S2. lia.
Qed.
