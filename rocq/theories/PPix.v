(** Root mean squares, and the error of a pixel from the errors of its components. *)
From Coq Require Import Reals Lra Lia ZArith List Bool.
From Verif Require Import SImage SDct SApi T81 SReal SPixels PReal PPixel ThmColor.
Import ListNotations.
Open Scope R_scope.

Lemma rsum8_mono f g : (forall i, (i < 8)%nat -> f i <= g i) -> rsum8 f <= rsum8 g.
Proof.
  intros H. unfold rsum8. pose proof (H 0%nat ltac:(lia)). pose proof (H 1%nat ltac:(lia)). pose proof (H 2%nat ltac:(lia)). pose proof (H 3%nat ltac:(lia)).
  pose proof (H 4%nat ltac:(lia)). pose proof (H 5%nat ltac:(lia)). pose proof (H 6%nat ltac:(lia)). pose proof (H 7%nat ltac:(lia)). lra.
Qed.
Definition sum64 (f : nat -> nat -> R) : R := rsum8 (fun y => rsum8 (fun x => f y x)).
Lemma sum64_mono f g : (forall y x, (y < 8)%nat -> (x < 8)%nat -> f y x <= g y x) -> sum64 f <= sum64 g.
Proof. intros H. apply rsum8_mono. intros y Hy. apply rsum8_mono. intros x Hx. now apply H. Qed.
Lemma sum64_lin a f b g : sum64 (fun y x => a * f y x + b * g y x) = a * sum64 f + b * sum64 g.
Proof. unfold sum64, rsum8. ring. Qed.
Lemma ms_sum e : mean_square e = sum64 (fun y x => e y x * e y x) / 64.
Proof. reflexivity. Qed.
Lemma ms_nonneg e : 0 <= mean_square e.
Proof.
  rewrite ms_sum. assert (0 <= sum64 (fun y x => e y x * e y x)); [|lra].
  replace 0 with (sum64 (fun _ _ => 0)) by (unfold sum64, rsum8; ring). apply sum64_mono. intros. nra.
Qed.
Lemma ms_mono f g : (forall y x, (y < 8)%nat -> (x < 8)%nat -> Rabs (f y x) <= Rabs (g y x)) -> mean_square f <= mean_square g.
Proof.
  intros H. rewrite !ms_sum. apply Rmult_le_compat_r; [lra|]. apply sum64_mono. intros y x Hy Hx.
  specialize (H y x Hy Hx). apply Rsqr_le_abs_1 in H. unfold Rsqr in H. exact H.
Qed.
Lemma ms_add a b A B : 0 < A -> 0 < B -> mean_square a <= A * A -> mean_square b <= B * B ->
  mean_square (fun y x => a y x + b y x) <= (A + B) * (A + B).
Proof.
  intros PA PB HA HB. rewrite ms_sum in *.
  assert (M : sum64 (fun y x => (a y x + b y x) * (a y x + b y x)) <=
              (1 + B / A) * sum64 (fun y x => a y x * a y x) + (1 + A / B) * sum64 (fun y x => b y x * b y x)).
  { rewrite <- sum64_lin. apply sum64_mono. intros y x _ _. generalize (a y x) (b y x). intros s t.
    assert (E : (1 + B / A) * (s * s) + (1 + A / B) * (t * t) - (s + t) * (s + t) = (B * s - A * t) * (B * s - A * t) / (A * B)) by (field; lra).
    assert (0 <= (B * s - A * t) * (B * s - A * t) / (A * B)); [|lra].
    apply Rmult_le_pos; [apply Rle_0_sqr|]. left. apply Rinv_0_lt_compat. now apply Rmult_lt_0_compat. }
  assert (K1 : 0 < B / A) by (apply Rdiv_lt_0_compat; assumption). assert (K2 : 0 < A / B) by (apply Rdiv_lt_0_compat; assumption).
  assert (M1 : (1 + B / A) * sum64 (fun y x => a y x * a y x) <= (1 + B / A) * (64 * (A * A))) by (apply Rmult_le_compat_l; lra).
  assert (M2 : (1 + A / B) * sum64 (fun y x => b y x * b y x) <= (1 + A / B) * (64 * (B * B))) by (apply Rmult_le_compat_l; lra).
  assert (F : (1 + B / A) * (64 * (A * A)) + (1 + A / B) * (64 * (B * B)) = 64 * ((A + B) * (A + B))) by (field; lra). lra.
Qed.

Lemma rms_nonneg e : 0 <= rms e.
Proof. apply sqrt_pos. Qed.
Lemma rms_sq e : rms e * rms e = mean_square e.
Proof. apply sqrt_sqrt, ms_nonneg. Qed.
Lemma rms_le e X : 0 <= X -> mean_square e <= X * X -> rms e <= X.
Proof. intros HX H. unfold rms. rewrite <- (sqrt_square X HX). now apply sqrt_le_1_alt. Qed.
Lemma rms_mono f g : (forall y x, (y < 8)%nat -> (x < 8)%nat -> Rabs (f y x) <= Rabs (g y x)) -> rms f <= rms g.
Proof. intros H. apply sqrt_le_1_alt, ms_mono, H. Qed.
Lemma rms_add a b : rms (fun y x => a y x + b y x) <= rms a + rms b.
Proof.
  apply le_epsilon. intros eps He. pose proof (rms_nonneg a). pose proof (rms_nonneg b).
  pose proof (rms_sq a). pose proof (rms_sq b).
  replace (rms a + rms b + eps) with ((rms a + eps / 2) + (rms b + eps / 2)) by lra.
  apply rms_le; [lra|]. apply ms_add; nra.
Qed.
Lemma rms_scale k a : 0 <= k -> rms (fun y x => k * a y x) = k * rms a.
Proof.
  intros Hk. unfold rms. replace (mean_square (fun y x => k * a y x)) with (k * k * mean_square a) by (unfold mean_square, rsum8; field).
  rewrite sqrt_mult_alt by nra. now rewrite sqrt_square.
Qed.
Lemma rms_const k : 0 <= k -> rms (fun _ _ => k) = k.
Proof. intros Hk. unfold rms. replace (mean_square (fun _ _ => k)) with (k * k) by (unfold mean_square, rsum8; field). now apply sqrt_square. Qed.
Lemma rms_abs a : rms (fun y x => Rabs (a y x)) = rms a.
Proof.
  unfold rms. f_equal. rewrite !ms_sum. f_equal. unfold sum64. apply rsum8_ext. intros y _. apply rsum8_ext. intros x _.
  rewrite <- Rabs_mult. apply Rabs_pos_eq. nra.
Qed.
Lemma one_of f i : (i < 8)%nat -> (forall k, (k < 8)%nat -> 0 <= f k) -> f i <= rsum8 f.
Proof.
  intros Hi Hf. pose proof (Hf 0%nat ltac:(lia)). pose proof (Hf 1%nat ltac:(lia)). pose proof (Hf 2%nat ltac:(lia)). pose proof (Hf 3%nat ltac:(lia)).
  pose proof (Hf 4%nat ltac:(lia)). pose proof (Hf 5%nat ltac:(lia)). pose proof (Hf 6%nat ltac:(lia)). pose proof (Hf 7%nat ltac:(lia)).
  unfold rsum8. do 8 (destruct i as [|i]; [lra|]). lia.
Qed.
Lemma peak a y x : (y < 8)%nat -> (x < 8)%nat -> Rabs (a y x) <= 8 * rms a.
Proof.
  intros Hy Hx. pose proof (rms_nonneg a) as N. pose proof (rms_sq a) as Q. rewrite ms_sum in Q.
  assert (A : a y x * a y x <= rsum8 (fun x => a y x * a y x)) by (apply (one_of (fun x => a y x * a y x)); [assumption|intros; nra]).
  assert (B : rsum8 (fun x => a y x * a y x) <= sum64 (fun y x => a y x * a y x)).
  { apply (one_of (fun y => rsum8 (fun x => a y x * a y x))); [assumption|]. intros k _. unfold rsum8. nra. }
  rewrite <- (Rabs_pos_eq (8 * rms a)) by lra. apply Rsqr_le_abs_0. unfold Rsqr. nra.
Qed.

(** ** Pixels *)
(** The error of byte [k] from the errors [d] of the components. *)
Definition mix (k : nat) (d : nat -> R) : R :=
  match k with
  | O => d 0%nat + 1402/1000 * d 2%nat + 121/100
  | 1%nat => d 0%nat + 345/1000 * d 1%nat + 715/1000 * d 2%nat + 104/100
  | _ => d 0%nat + 1772/1000 * d 1%nat + 140/100
  end.
Definition combo (c : ctype) (k : nat) (d : nat -> R) : R :=
  match c with
  | Luma | Ycbcr | Ycck | Cmyk => d k
  | Rgb | Rgba => mix k d
  | Bgr | Bgra => mix (2 - k) d
  | CmykAsYcck => match k with 3%nat => d 3%nat | _ => mix k d end
  end.
Lemma conv_y r g b : (0 <= r <= 255)%Z -> (0 <= g <= 255)%Z -> (0 <= b <= 255)%Z ->
  Rabs (IZR (spec_y r g b) - jfif_y (IZR r) (IZR g) (IZR b)) <= 502/1000 /\
  Rabs (IZR (spec_cb r g b) - jfif_cb (IZR r) (IZR g) (IZR b)) <= 503/1000 /\
  Rabs (IZR (spec_cr r g b) - jfif_cr (IZR r) (IZR g) (IZR b)) <= 503/1000.
Proof.
  intros Hr Hg Hb. apply (C22_rgb_to_ycbcr r g b _ _ _ Hr Hg Hb). now apply rgb_to_ycbcr_spec.
Qed.
Lemma unabs x e : Rabs x <= e -> - e <= x <= e.
Proof. intros H. unfold Rabs in H. destruct (Rcase_abs x); lra. Qed.
Lemma conv_back k r g b (s : nat -> R) d : (0 <= r <= 255)%Z -> (0 <= g <= 255)%Z -> (0 <= b <= 255)%Z ->
  (forall i, (i < 3)%nat -> Rabs (s i - IZR (spec_ycc i r g b)) <= d i) ->
  Rabs (inverse k (s 0%nat) (s 1%nat) (s 2%nat) - IZR (match k with O => r | 1%nat => g | _ => b end)) <= mix k d.
Proof.
  intros Hr Hg Hb H. destruct (conv_y r g b Hr Hg Hb) as (Y & B & C).
  pose proof (H 0%nat ltac:(lia)) as H0. pose proof (H 1%nat ltac:(lia)) as H1. pose proof (H 2%nat ltac:(lia)) as H2. cbn [spec_ycc] in *.
  assert (D1 : forall x : R, x / (1772 / 1000) = x * 1000 / 1772) by (intros x; field).
  assert (D2 : forall x : R, x / (1402 / 1000) = x * 1000 / 1402) by (intros x; field).
  assert (D3 : forall x : R, x / (587 / 1000) = x * 1000 / 587) by (intros x; field).
  unfold jfif_cb, jfif_cr, jfif_y in *. apply unabs in Y, B, C, H0, H1, H2. rewrite D1 in B. rewrite D2 in C.
  destruct k as [|[|k]]; cbn [inverse mix]; unfold inverse_g, inverse_r, inverse_b; rewrite ?D3; apply Rabs_le; lra.
Qed.

Lemma shown_close c data w y x k (s : nat -> R) d : Forall is_u8 data -> (Z.of_nat k < num_components (spec_color c))%Z ->
  (forall i, (Z.of_nat i < num_components (spec_color c))%Z -> Rabs (s i - IZR (spec_plane c data w i y x)) <= d i) ->
  Rabs (shown c s k - IZR (pixel_byte data w (spec_bpp c) y x (Z.of_nat k))) <= combo c k d.
Proof.
  intros HD Hk H.
  assert (U : forall i, (0 <= pixel_byte data w (spec_bpp c) y x i <= 255)%Z).
  { intros i. unfold pixel_byte. set (n := Z.to_nat _). destruct (nth_in_or_default n data 0%Z) as [I|E]; [|rewrite E; lia].
    rewrite Forall_forall in HD. specialize (HD _ I). unfold is_u8 in HD. lia. }
  unfold spec_plane in H. set (p := pixel_byte data w (spec_bpp c) y x) in *. clearbody p.
  pose proof (U 0%Z) as U0. pose proof (U 1%Z) as U1. pose proof (U 2%Z) as U2.
  assert (I : forall a n, Rabs (255 - a - IZR n) = Rabs (a - IZR (255 - n))).
  { intros a n. rewrite minus_IZR. rewrite <- Rabs_Ropp. f_equal. lra. }
  destruct c; cbn [spec_color num_components shown combo] in *.
  - assert (k = 0%nat) by lia. subst k. apply (H 0%nat). lia.
  - pose proof (conv_back k _ _ _ s d U0 U1 U2 ltac:(intros i Hi; apply H; lia)) as C. destruct k as [|[|[|k]]]; [exact C|exact C|exact C|lia].
  - pose proof (conv_back k _ _ _ s d U0 U1 U2 ltac:(intros i Hi; apply H; lia)) as C. destruct k as [|[|[|k]]]; [exact C|exact C|exact C|lia].
  - pose proof (conv_back (2 - k) _ _ _ s d U2 U1 U0 ltac:(intros i Hi; apply H; lia)) as C. destruct k as [|[|[|k]]]; [exact C|exact C|exact C|lia].
  - pose proof (conv_back (2 - k) _ _ _ s d U2 U1 U0 ltac:(intros i Hi; apply H; lia)) as C. destruct k as [|[|[|k]]]; [exact C|exact C|exact C|lia].
  - now apply H.
  - rewrite I. now apply H.
  - assert (E : forall i, (i < 3)%nat -> Rabs (s i - IZR (spec_ycc i (p 0%Z) (p 1%Z) (p 2%Z))) <= d i).
    { intros i Hi. specialize (H i ltac:(lia)). destruct (i <? 3)%nat eqn:L; [exact H|]. apply Nat.ltb_ge in L. lia. }
    pose proof (conv_back k _ _ _ s d U0 U1 U2 E) as C. destruct k as [|[|[|[|k]]]]; [exact C|exact C|exact C| |lia].
    rewrite I. exact (H 3%nat ltac:(lia)).
  - now apply H.
Qed.
Lemma rms_combo c k (d : nat -> nat -> nat -> R) :
  rms (fun y x => combo c k (fun i => Rabs (d i y x))) <= combo c k (fun i => rms (d i)).
Proof.
  assert (M : forall k, rms (fun y x => mix k (fun i => Rabs (d i y x))) <= mix k (fun i => rms (d i))).
  { clear k. intros k. destruct k as [|[|k]]; cbn [mix].
    - eapply Rle_trans; [apply (rms_add (fun y x => Rabs (d 0%nat y x) + 1402 / 1000 * Rabs (d 2%nat y x)) (fun _ _ => 121 / 100))|].
      rewrite rms_const by lra. apply Rplus_le_compat_r. eapply Rle_trans; [apply rms_add|]. rewrite rms_scale, !rms_abs by lra. lra.
    - eapply Rle_trans; [apply (rms_add (fun y x => Rabs (d 0%nat y x) + 345 / 1000 * Rabs (d 1%nat y x) + 715 / 1000 * Rabs (d 2%nat y x)) (fun _ _ => 104 / 100))|].
      rewrite rms_const by lra. apply Rplus_le_compat_r.
      eapply Rle_trans; [apply (rms_add (fun y x => Rabs (d 0%nat y x) + 345 / 1000 * Rabs (d 1%nat y x)) (fun y x => 715 / 1000 * Rabs (d 2%nat y x)))|].
      pose proof (rms_add (fun y x => Rabs (d 0%nat y x)) (fun y x => 345 / 1000 * Rabs (d 1%nat y x))) as A.
      rewrite rms_scale, !rms_abs in A by lra. rewrite (rms_scale (715 / 1000)), rms_abs by lra. lra.
    - eapply Rle_trans; [apply (rms_add (fun y x => Rabs (d 0%nat y x) + 1772 / 1000 * Rabs (d 1%nat y x)) (fun _ _ => 140 / 100))|].
      rewrite rms_const by lra. apply Rplus_le_compat_r. eapply Rle_trans; [apply rms_add|]. rewrite rms_scale, !rms_abs by lra. lra. }
  destruct c; cbn [combo]; try (rewrite rms_abs; apply Rle_refl); try apply M.
  destruct k as [|[|[|[|k]]]]; try (rewrite rms_abs; apply Rle_refl); apply M.
Qed.
Lemma mix_mono k d d' : (forall i, (i < 3)%nat -> d i <= d' i) -> mix k d <= mix k d'.
Proof.
  intros H. pose proof (H 0%nat ltac:(lia)). pose proof (H 1%nat ltac:(lia)). pose proof (H 2%nat ltac:(lia)). destruct k as [|[|k]]; cbn [mix]; lra.
Qed.
Lemma combo_mono c k d d' : (Z.of_nat k < num_components (spec_color c))%Z ->
  (forall i, (Z.of_nat i < num_components (spec_color c))%Z -> d i <= d' i) -> combo c k d <= combo c k d'.
Proof.
  intros Hk H. destruct c; cbn [spec_color num_components combo] in *; try (now apply H); try (apply mix_mono; intros; apply H; lia).
  destruct k as [|[|[|[|k]]]]; try (apply H; lia); apply mix_mono; intros; apply H; lia.
Qed.

Lemma nearest_close x v p e : nearest_byte x v -> (0 <= p <= 255)%Z -> Rabs (x - IZR p) <= e -> Rabs (IZR (v - p)) <= e + / 2.
Proof.
  intros [_ H] [P0 P1] Hx. apply IZR_le in P0, P1. rewrite minus_IZR. apply unabs in H, Hx. apply Rabs_le.
  unfold Rmax, Rmin in H. destruct (Rle_dec 255 x); destruct (Rle_dec 0 _); lra.
Qed.
