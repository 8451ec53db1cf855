(** Proofs for C72: the transforms and the quantizer under the eight motions, and on patterns. *)
From Verif Require Import T81 SImage SDct SAvx2 SReal SEncode SMove ThmQuant.
From Coq Require Import ZArith List Bool Lia ZifyBool ZifyNat.
Import ListNotations.
Open Scope Z_scope.

(** ** The exact sum *)
Definition exact (s : nat -> nat -> Z) (v u : nat) : Z := sum8 (fun y => dct_entry v y * sum8 (fun x => dct_entry u x * s y x)).
Definition near_exact (T : transform) : Prop := forall s v u, (v < 8)%nat -> (u < 8)%nat -> - 2 ^ 27 <= 2 ^ 26 * T s v u - exact s v u <= 2 ^ 27.

Lemma term_bound c g B : - B <= g <= B -> - (Z.abs c * B) <= c * g <= Z.abs c * B.
Proof. intros H. destruct (Z.abs_spec c) as [[Hc ->]|[Hc ->]]; nia. Qed.
Lemma entry_sum v : (v < 8)%nat -> sum8 (fun y => Z.abs (dct_entry v y)) <= 65536.
Proof.
  intros Hv. assert (A : forallb (fun v => sum8 (fun y => Z.abs (dct_entry v y)) <=? 65536) (seq 0 8) = true) by (vm_compute; reflexivity).
  rewrite forallb_forall in A. apply Z.leb_le, A, in_seq. lia.
Qed.
Lemma sum_bound v (g : nat -> Z) B : (v < 8)%nat -> (forall y, (y < 8)%nat -> - B <= g y <= B) ->
  - (65536 * B) <= sum8 (fun y => dct_entry v y * g y) <= 65536 * B.
Proof.
  intros Hv H. assert (PB : 0 <= B) by (pose proof (H 0%nat ltac:(lia)); lia). pose proof (entry_sum v Hv) as S.
  pose proof (fun y Hy => term_bound (dct_entry v y) (g y) B (H y Hy)) as K. clear H.
  pose proof (K 0%nat ltac:(lia)) as K0. pose proof (K 1%nat ltac:(lia)) as K1. pose proof (K 2%nat ltac:(lia)) as K2. pose proof (K 3%nat ltac:(lia)) as K3.
  pose proof (K 4%nat ltac:(lia)) as K4. pose proof (K 5%nat ltac:(lia)) as K5. pose proof (K 6%nat ltac:(lia)) as K6. pose proof (K 7%nat ltac:(lia)) as K7. clear K.
  apply (Z.mul_le_mono_nonneg_r _ _ B PB) in S. unfold sum8 in *. rewrite !Z.mul_add_distr_r in S.
  generalize dependent (dct_entry v). intros d S K0 K1 K2 K3 K4 K5 K6 K7.
  repeat match goal with |- context [d ?n * g ?m] => generalize dependent (d n * g m); intros end.
  repeat match goal with H : context [Z.abs ?a * B] |- _ => generalize dependent (Z.abs a * B); intros end. lia.
Qed.
Definition columns (s : nat -> nat -> Z) (v u : nat) : Z := sum8 (fun y => dct_entry v y * row_dct s y u).
Lemma sum_linear (d r R : nat -> Z) k : sum8 (fun y => d y * (k * r y - R y)) = k * sum8 (fun y => d y * r y) - sum8 (fun y => d y * R y).
Proof. unfold sum8. ring. Qed.
Lemma columns_near s v u : (v < 8)%nat -> - 2 ^ 26 <= 2 ^ 11 * columns s v u - exact s v u <= 2 ^ 26.
Proof.
  intros Hv. unfold columns, exact. set (R := fun y => sum8 (fun x => dct_entry u x * s y x)).
  change (sum8 (fun y => dct_entry v y * sum8 (fun x => dct_entry u x * s y x))) with (sum8 (fun y => dct_entry v y * R y)).
  pose proof (sum_bound v (fun y => 2048 * row_dct s y u - R y) 1024 Hv) as B.
  assert (E : forall y, (y < 8)%nat -> -1024 <= 2048 * row_dct s y u - R y <= 1024).
  { intros y _. unfold row_dct. change (sum8 (fun x => dct_entry u x * s y x)) with (R y). generalize (R y). intros r. unfold round_shift.
    change (2 ^ (11 - 1)) with 1024. change (2 ^ 11) with 2048. lia. }
  specialize (B E). clear E. cbv beta in B.
  pose proof (sum_linear (dct_entry v) (fun y => row_dct s y u) R 2048) as L. cbv beta in L.
  rewrite L in B. clear L. change (2 ^ 11) with 2048. generalize dependent (2048 * sum8 (fun y => dct_entry v y * row_dct s y u) - sum8 (fun y => dct_entry v y * R y)). intros z B. change (2 ^ 26) with 67108864. lia.
Qed.
Lemma int_near : near_exact int_dct.
Proof.
  intros s v u Hv Hu. pose proof (columns_near s v u Hv) as C. unfold int_dct. fold (columns s v u). generalize dependent (exact s v u). generalize (columns s v u). intros c e C.
  unfold round_shift. change (2 ^ (15 - 1)) with 16384. change (2 ^ 15) with 32768. change (2 ^ 11) with 2048 in C. change (2 ^ 26) with 67108864 in *. change (2 ^ 27) with 134217728. lia.
Qed.
Lemma avx2_near : near_exact avx2_dct.
Proof.
  intros s v u Hv Hu. unfold avx2_dct. destruct (unrounded v u); [|now apply int_near].
  pose proof (columns_near s v u Hv) as C. fold (columns s v u). generalize dependent (exact s v u). generalize (columns s v u). intros c e C.
  change (2 ^ 15) with 32768. change (2 ^ 11) with 2048 in C. change (2 ^ 26) with 67108864 in *. change (2 ^ 27) with 134217728. lia.
Qed.
Lemma exact_bound s v u : (v < 8)%nat -> (u < 8)%nat -> (forall y x, (y < 8)%nat -> (x < 8)%nat -> -128 <= s y x <= 127) ->
  - (65536 * (65536 * 128)) <= exact s v u <= 65536 * (65536 * 128).
Proof.
  intros Hv Hu H. unfold exact. apply (sum_bound v (fun y => sum8 (fun x => dct_entry u x * s y x)) (65536 * 128) Hv).
  intros y Hy. apply (sum_bound u (s y) 128 Hu). intros x Hx. pose proof (H y x Hy Hx). lia.
Qed.
Lemma near_range T s v u : near_exact T -> (v < 8)%nat -> (u < 8)%nat -> (forall y x, (y < 8)%nat -> (x < 8)%nat -> -128 <= s y x <= 127) ->
  -8194 <= T s v u <= 8194.
Proof. intros N Hv Hu H. pose proof (N s v u Hv Hu) as A. pose proof (exact_bound s v u Hv Hu H) as B. generalize dependent (exact s v u). generalize (T s v u). intros t e A B. lia. Qed.

(** ** Motions *)
Lemma sum_exchange (M : nat -> nat -> Z) s v u :
  sum8 (fun y => M v y * sum8 (fun x => M u x * s x y)) = sum8 (fun y => M u y * sum8 (fun x => M v x * s y x)).
Proof. unfold sum8. ring. Qed.
Definition flip_sign (v : nat) : Z := if Nat.odd v then -1 else 1.
Lemma entry_flip v y : (v < 8)%nat -> (y < 8)%nat -> dct_entry v (7 - y) = flip_sign v * dct_entry v y.
Proof.
  intros Hv Hy. assert (A : forallb (fun v => forallb (fun y => dct_entry v (7 - y) =? flip_sign v * dct_entry v y) (seq 0 8)) (seq 0 8) = true) by (vm_compute; reflexivity).
  rewrite forallb_forall in A. specialize (A v ltac:(apply in_seq; lia)). rewrite forallb_forall in A. specialize (A y ltac:(apply in_seq; lia)). lia.
Qed.
Lemma sum_flip v (g : nat -> Z) : (v < 8)%nat -> sum8 (fun y => dct_entry v y * g (7 - y)%nat) = flip_sign v * sum8 (fun y => dct_entry v y * g y).
Proof.
  intros Hv. pose proof (fun y Hy => entry_flip v y Hv Hy) as E.
  pose proof (E 0%nat ltac:(lia)) as E0. pose proof (E 1%nat ltac:(lia)) as E1. pose proof (E 2%nat ltac:(lia)) as E2. pose proof (E 3%nat ltac:(lia)) as E3.
  pose proof (E 4%nat ltac:(lia)) as E4. pose proof (E 5%nat ltac:(lia)) as E5. pose proof (E 6%nat ltac:(lia)) as E6. pose proof (E 7%nat ltac:(lia)) as E7. clear E.
  cbn [Nat.sub] in E0, E1, E2, E3, E4, E5, E6, E7. unfold sum8. cbn [Nat.sub]. 
  rewrite E3, E2, E1, E0 in *. generalize dependent (dct_entry v). intros d _ _ _ _ _ _ _ _.
  unfold flip_sign. destruct (Nat.odd v); ring.
Qed.
Definition turn (b : bool) (y : nat) : nat := if b then (7 - y)%nat else y.
Definition turn_sign (b : bool) (v : nat) : Z := if b && Nat.odd v then -1 else 1.
Lemma sum_turn b v (g : nat -> Z) : (v < 8)%nat -> sum8 (fun y => dct_entry v y * g (turn b y)) = turn_sign b v * sum8 (fun y => dct_entry v y * g y).
Proof.
  intros Hv. unfold turn, turn_sign. destruct b; cbn [andb]; [exact (sum_flip v g Hv)|]. rewrite Z.mul_1_l. reflexivity.
Qed.
Lemma sum_scale (d g : nat -> Z) k : sum8 (fun y => d y * (k * g y)) = k * sum8 (fun y => d y * g y).
Proof. unfold sum8. ring. Qed.
Lemma sum8_ext8 f g : (forall y, (y < 8)%nat -> f y = g y) -> sum8 f = sum8 g.
Proof. intros E. unfold sum8. rewrite !E by lia. reflexivity. Qed.
Lemma exact_ext s s' v u : (forall y x, (y < 8)%nat -> (x < 8)%nat -> s y x = s' y x) -> exact s v u = exact s' v u.
Proof. intros E. unfold exact. apply sum8_ext8. intros y Hy. f_equal. apply sum8_ext8. intros x Hx. rewrite (E y x Hy Hx). reflexivity. Qed.
Lemma exact_turned b c s v u : (v < 8)%nat -> (u < 8)%nat -> exact (fun y x => s (turn b y) (turn c x)) v u = turn_sign b v * turn_sign c u * exact s v u.
Proof.
  intros Hv Hu. unfold exact.
  rewrite (sum8_ext8 _ (fun y => dct_entry v y * (turn_sign c u * sum8 (fun x => dct_entry u x * s (turn b y) x)))) by (intros y _; rewrite (sum_turn c u (s (turn b y)) Hu); reflexivity).
  rewrite (sum_turn b v (fun y => turn_sign c u * sum8 (fun x => dct_entry u x * s y x)) Hv).
  rewrite (sum_scale (dct_entry v) (fun y => sum8 (fun x => dct_entry u x * s y x))). apply Z.mul_assoc.
Qed.
Definition place (m : motion) (y x : nat) : nat * nat :=
  let '(y, x) := if transpose m then (x, y) else (y, x) in (turn (upside_down m) y, turn (mirror m) x).
Lemma exact_moved m s s' v u : (v < 8)%nat -> (u < 8)%nat ->
  (forall y x, (y < 8)%nat -> (x < 8)%nat -> s' y x = s (fst (place m y x)) (snd (place m y x))) ->
  let '(v', u') := moved_frequency m (v, u) in exact s' v u = moved_sign m (v', u') * exact s v' u'.
Proof.
  intros Hv Hu E. unfold moved_frequency, moved_sign. unfold place in E. cbn [fst snd]. destruct (transpose m); cbn [fst snd] in *.
  - rewrite (exact_ext s' (fun y x => (fun a b => s (turn (upside_down m) a) (turn (mirror m) b)) x y) v u E).
    unfold exact at 1. rewrite (sum_exchange dct_entry). exact (exact_turned _ _ s u v Hu Hv).
  - rewrite (exact_ext s' (fun y x => s (turn (upside_down m) y) (turn (mirror m) x)) v u E). exact (exact_turned _ _ s v u Hv Hu).
Qed.
Lemma moved_sign_cases m p : moved_sign m p = 1 \/ moved_sign m p = -1.
Proof. unfold moved_sign. destruct (_ && _), (_ && _); cbv; auto. Qed.

(** ** The quantizer: four units, half a step of the finest table, move it by one step at most *)
Lemma quantize_step q a b : 1 <= q <= 2048 -> -8194 <= a <= 8194 -> -8194 <= b <= 8194 -> -4 <= b - a <= 4 ->
  Z.abs (int_quantize (8 * q) b - int_quantize (8 * q) a) <= 1.
Proof.
  intros Hq Ha Hb D. destruct (Z.eq_dec q 1) as [->|N].
  - change (8 * 1) with (2 ^ 3). rewrite !C15_exact_powers by lia. unfold nearest. change (2 ^ 3) with 8. change (8 / 2) with 4.
    destruct (Z.lt_trichotomy a 0) as [A|[A|A]], (Z.lt_trichotomy b 0) as [B|[B|B]];
      rewrite ?(Z.sgn_neg a), ?(Z.sgn_pos a), ?(Z.sgn_neg b), ?(Z.sgn_pos b) by assumption; subst; cbn [Z.sgn]; lia.
  - pose proof (C15_error (8 * q) a ltac:(lia)) as E1. pose proof (C15_error (8 * q) b ltac:(lia)) as E2.
    replace (8 * q / 2) with (4 * q) in E1, E2 by (replace (8 * q) with (4 * q * 2) by ring; symmetry; apply Z.div_mul; lia).
    set (x := int_quantize (8 * q) a) in *. set (y := int_quantize (8 * q) b) in *. clearbody x y.
    assert (G : forall z, -8194 <= z <= 8194 -> (Z.abs z + 4 * q + 1) * (8 * q) <= 131096 * q).
    { intros z Hz. assert (K : Z.abs z + 4 * q + 1 <= 16385 + 2) by lia. apply (Z.mul_le_mono_nonneg_r _ _ (8 * q)) in K; lia. }
    pose proof (G a Ha) as G1. pose proof (G b Hb) as G2. clear G.
    assert (K1 : 65536 * Z.abs (a - x * (8 * q)) <= 65536 + 393240 * q) by lia.
    assert (K2 : 65536 * Z.abs (b - y * (8 * q)) <= 65536 + 393240 * q) by lia. clear E1 E2 G1 G2.
    assert (K : 65536 * Z.abs ((y - x) * (8 * q)) < 65536 * (16 * q)).
    { replace ((y - x) * (8 * q)) with (y * (8 * q) - x * (8 * q)) by ring. generalize dependent (x * (8 * q)). generalize dependent (y * (8 * q)). intros Y K2 X K1. lia. }
    rewrite Z.abs_mul, (Z.abs_eq (8 * q)) in K by lia. clear - K Hq. destruct (Z.le_gt_cases (Z.abs (y - x)) 1); [assumption|].
    assert (2 * (8 * q) <= Z.abs (y - x) * (8 * q)) by (apply Z.mul_le_mono_nonneg_r; lia). lia.
Qed.
Lemma moved_coefficient T m b1 b2 v u q : near_exact T -> 1 <= q <= 2048 -> (v < 8)%nat -> (u < 8)%nat ->
  (forall y x, (y < 8)%nat -> (x < 8)%nat -> -128 <= b1 y x <= 127) -> (forall y x, (y < 8)%nat -> (x < 8)%nat -> -128 <= b2 y x <= 127) ->
  (forall y x, (y < 8)%nat -> (x < 8)%nat -> b2 y x = b1 (fst (place m y x)) (snd (place m y x))) ->
  let '(v', u') := moved_frequency m (v, u) in
  Z.abs (int_quantize (8 * q) (T b2 v u) - moved_sign m (v', u') * int_quantize (8 * q) (T b1 v' u')) <= 1.
Proof.
  intros N Hq Hv Hu R1 R2 E. pose proof (exact_moved m b1 b2 v u Hv Hu E) as X.
  assert (Hf : (fst (moved_frequency m (v, u)) < 8)%nat /\ (snd (moved_frequency m (v, u)) < 8)%nat) by (unfold moved_frequency; destruct (transpose m); cbn; lia).
  destruct (moved_frequency m (v, u)) as [v' u']. destruct Hf as [Hv' Hu']. cbn [fst snd] in Hv', Hu'.
  pose proof (N b1 v' u' Hv' Hu') as N1. pose proof (N b2 v u Hv Hu) as N2.
  pose proof (near_range T b1 v' u' N Hv' Hu' R1) as Q1. pose proof (near_range T b2 v u N Hv Hu R2) as Q2. rewrite X in N2.
  generalize dependent (T b1 v' u'). generalize dependent (T b2 v u). intros b N2 Q2 a N1 Q1. generalize dependent (exact b1 v' u'). intros e _ N2 N1.
  change (2 ^ 27) with 134217728 in *. change (2 ^ 26) with 67108864 in *.
  destruct (moved_sign_cases m (v', u')) as [S|S]; rewrite S in *.
  - rewrite Z.mul_1_l. apply quantize_step; lia.
  - replace (-1 * int_quantize (8 * q) a) with (int_quantize (8 * q) (- a)) by (rewrite C15_odd; lia). apply quantize_step; lia.
Qed.

(** ** Patterns *)
Lemma sum_constant v k : (v < 8)%nat -> v <> 0%nat -> sum8 (fun y => dct_entry v y * k) = 0.
Proof.
  intros Hv N. unfold sum8. do 8 (destruct v as [|v]; [first [now contradiction N | unfold dct_entry, dct_matrix; cbn [nth]; ring]|]). lia.
Qed.
Lemma sum_symmetric v (g : nat -> Z) : (v < 8)%nat -> Nat.odd v = true -> (forall y, (y < 8)%nat -> g y = g (7 - y)%nat) ->
  sum8 (fun y => dct_entry v y * g y) = 0.
Proof.
  intros Hv O H. pose proof (sum_flip v g Hv) as F. unfold flip_sign in F. rewrite O in F.
  rewrite (sum8_ext8 (fun y => dct_entry v y * g (7 - y)%nat) (fun y => dct_entry v y * g y)) in F by (intros y Hy; rewrite <- (H y Hy); reflexivity).
  generalize dependent (sum8 (fun y => dct_entry v y * g y)). intros z F. lia.
Qed.
Lemma columns_absent p s v u : (v < 8)%nat -> (u < 8)%nat -> has_pattern p s -> absent p (v, u) = true -> columns s v u = 0.
Proof.
  intros Hv Hu H A. unfold columns.
  assert (Z0 : (forall y, (y < 8)%nat -> sum8 (fun x => dct_entry u x * s y x) = 0) -> sum8 (fun y => dct_entry v y * row_dct s y u) = 0).
  { intros R. rewrite (sum8_ext8 _ (fun y => dct_entry v y * 0)); [unfold sum8; lia|]. intros y Hy. unfold row_dct. rewrite (R y Hy). reflexivity. }
  destruct p; cbn [has_pattern absent fst snd] in H, A.
  - apply Z0. intros y Hy. rewrite (sum8_ext8 _ (fun x => dct_entry u x * s y 0%nat)) by (intros x Hx; rewrite (H y x Hy Hx); reflexivity).
    apply sum_constant; [assumption|]. intros ->. discriminate A.
  - rewrite (sum8_ext8 _ (fun y => dct_entry v y * row_dct s 0 u)).
    + apply sum_constant; [assumption|]. intros ->. discriminate A.
    + intros y Hy. f_equal. unfold row_dct. f_equal. apply sum8_ext8. intros x Hx. rewrite (H y x Hy Hx). reflexivity.
  - apply Z0. intros y Hy. apply (sum_symmetric u (s y)); try assumption. intros x Hx. exact (H y x Hy Hx).
  - apply (sum_symmetric v (fun y => row_dct s y u)); try assumption. intros y Hy. unfold row_dct. f_equal. apply sum8_ext8.
    intros x Hx. rewrite (H y x Hy Hx). reflexivity.
Qed.
Definition pattern_ok (T : transform) : Prop := forall p s v u, (v < 8)%nat -> (u < 8)%nat -> has_pattern p s -> absent p (v, u) = true -> T s v u = 0.
Lemma int_pattern : pattern_ok int_dct.
Proof. intros p s v u Hv Hu H A. unfold int_dct. fold (columns s v u). rewrite (columns_absent p s v u Hv Hu H A). reflexivity. Qed.
Lemma avx2_pattern : pattern_ok avx2_dct.
Proof.
  intros p s v u Hv Hu H A. unfold avx2_dct. destruct (unrounded v u); [|exact (int_pattern p s v u Hv Hu H A)].
  fold (columns s v u). rewrite (columns_absent p s v u Hv Hu H A). reflexivity.
Qed.
