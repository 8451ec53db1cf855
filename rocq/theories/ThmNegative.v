(** C76: the coefficients of the negative image. *)
From Verif Require Import T81 SFile SEncode SHuff SAvx2 SSize SRestart SDecide SLocal SReal SStable SMove SNegative MAvx2 PAvx2 PAvxDct PSmall PRest PDecide PCount PMax PPlat PMove PStable
  ThmRound ThmQuant ThmScan ThmHuff ThmBytes ThmRestart ThmDecide ThmAvx2 ThmAll ThmLocal ThmReal ThmGrey ThmDecoder ThmBright ThmMove ThmStable.
From Coq Require Import ZArith List Bool Lia ZifyBool ZifyNat.
Import ListNotations.
Open Scope Z_scope.

Lemma sum_plus (M : nat -> nat -> Z) s1 s2 v u :
  sum8 (fun y => M v y * sum8 (fun x => M u x * s2 y x)) + sum8 (fun y => M v y * sum8 (fun x => M u x * s1 y x)) =
  sum8 (fun y => M v y * sum8 (fun x => M u x * (s2 y x + s1 y x))).
Proof. unfold sum8. ring. Qed.
Lemma exact_plus s1 s2 v u : exact s2 v u + exact s1 v u = exact (fun y x => s2 y x + s1 y x) v u.
Proof. exact (sum_plus dct_entry s1 s2 v u). Qed.
Lemma near_plus T s1 s2 v u e : near_exact T -> (v < 8)%nat -> (u < 8)%nat ->
  (forall y x, (y < 8)%nat -> (x < 8)%nat -> Z.abs (s2 y x + s1 y x) <= e) -> Z.abs (T s2 v u + T s1 v u) <= 64 * e + 4.
Proof.
  intros N Hv Hu HE. pose proof (N s1 v u Hv Hu) as A. pose proof (N s2 v u Hv Hu) as B. pose proof (exact_plus s1 s2 v u) as X.
  assert (D : - (65536 * (65536 * e)) <= exact (fun y x => s2 y x + s1 y x) v u <= 65536 * (65536 * e)).
  { unfold exact. apply (sum_bound v (fun y => sum8 (fun x => dct_entry u x * (s2 y x + s1 y x))) (65536 * e) Hv).
    intros y Hy. apply (sum_bound u (fun x => s2 y x + s1 y x) e Hu). intros x Hx. pose proof (HE y x Hy Hx). lia. }
  clear HE. rewrite <- X in D. clear X. revert A B D. generalize (exact s1 v u) (exact s2 v u) (T s1 v u) (T s2 v u).
  intros x1 x2 t1 t2 A B D. change (2 ^ 27) with 134217728 in *. change (2 ^ 26) with 67108864 in *. lia.
Qed.
Lemma near_opposite T s1 s2 v u k : near_exact T -> (v < 8)%nat -> (u < 8)%nat -> (v, u) <> (0%nat, 0%nat) ->
  (forall y x, (y < 8)%nat -> (x < 8)%nat -> s2 y x + s1 y x = k) -> Z.abs (T s2 v u + T s1 v u) <= 4.
Proof.
  intros N Hv Hu NZ HE. pose proof (N s1 v u Hv Hu) as A. pose proof (N s2 v u Hv Hu) as B. pose proof (exact_plus s1 s2 v u) as X.
  rewrite (exact_ext _ (fun _ _ => k) v u HE) in X.
  assert (D : exact (fun _ _ => k) v u = 0).
  { unfold exact. destruct (Nat.eq_dec u 0) as [->|NU].
    - apply sum_constant; [exact Hv|]. intros ->. now apply NZ.
    - rewrite (sum_constant u k Hu NU). unfold sum8. ring. }
  rewrite D in X. clear HE D. revert A B X. generalize (exact s1 v u) (exact s2 v u) (T s1 v u) (T s2 v u).
  intros x1 x2 t1 t2 A B X. change (2 ^ 27) with 134217728 in *. change (2 ^ 26) with 67108864 in *. lia.
Qed.
Lemma zigzag_dc k : (0 < k < 64)%nat -> zigzag_pos (Z.of_nat k) <> (0%nat, 0%nat).
Proof.
  intros Hk. assert (A : forallb (fun k => negb ((fst (zigzag_pos (Z.of_nat k)) =? 0) && (snd (zigzag_pos (Z.of_nat k)) =? 0))%nat) (seq 1 63) = true) by (vm_compute; reflexivity).
  rewrite forallb_forall in A. specialize (A k ltac:(apply in_seq; lia)). intros E. rewrite E in A. discriminate.
Qed.
Lemma negative_coefficient T s1 s2 v u q e : near_exact T -> 1 <= q <= 2048 -> (v < 8)%nat -> (u < 8)%nat ->
  (forall y x, (y < 8)%nat -> (x < 8)%nat -> -128 <= s1 y x <= 127) -> (forall y x, (y < 8)%nat -> (x < 8)%nat -> -128 <= s2 y x <= 127) ->
  (forall y x, (y < 8)%nat -> (x < 8)%nat -> Z.abs (s2 y x + s1 y x + 1) <= e) ->
  let a := int_quantize (8 * q) (T s1 v u) in let b := int_quantize (8 * q) (T s2 v u) in
  Z.abs (q * b + q * a) <= 8 * (e + 1) + 2 * q /\ (e = 0 -> (v, u) <> (0%nat, 0%nat) -> Z.abs (b + a) <= 1).
Proof.
  intros N Hq Hv Hu R1 R2 HE a b.
  pose proof (near_range T s1 v u N Hv Hu R1) as Q1. pose proof (near_range T s2 v u N Hv Hu R2) as Q2.
  assert (Q1' : -8194 <= - T s1 v u <= 8194) by (clear - Q1; lia).
  pose proof (near_plus T s1 s2 v u (e + 1) N Hv Hu ltac:(intros y x Hy Hx; specialize (HE y x Hy Hx); clear - HE; lia)) as C.
  split.
  - pose proof (quantize_change q (- T s1 v u) (T s2 v u) (64 * (e + 1)) Hq Q1' Q2 ltac:(clear - C; lia)) as S. rewrite C15_odd in S. fold a b in S. clear - S. lia.
  - intros -> NZ. pose proof (near_opposite T s1 s2 v u (-1) N Hv Hu NZ ltac:(intros y x Hy Hx; specialize (HE y x Hy Hx); clear - HE; lia)) as D.
    pose proof (PMove.quantize_step q (- T s1 v u) (T s2 v u) Hq Q1' Q2 ltac:(clear - D; lia)) as S. rewrite C15_odd in S. fold a b in S. clear - S. lia.
Qed.

(** ** One block *)
Lemma negative_core T (HT : near_exact T) s1 s2 color1 color2 w1 h1 w2 h2 pl1 pl2 j1 j2 :
  decoded_with T s1 color1 w1 h1 pl1 j1 -> decoded_with T s2 color2 w2 h2 pl2 j2 ->
  planes_ok s1 color1 w1 h1 pl1 -> planes_ok s2 color2 w2 h2 pl2 -> quantizers_fit s1 color1 ->
  forall ci1 ci2 co1 co2, nth_error (fr_comps (j_frame j1)) ci1 = Some co1 -> nth_error (fr_comps (j_frame j2)) ci2 = Some co2 ->
  quant j1 ci1 = quant j2 ci2 ->
  forall by1 bx1 by2 bx2 e,
  0 <= by1 < blocks_high (j_frame j1) co1 -> 0 <= bx1 < blocks_wide (j_frame j1) co1 ->
  0 <= by2 < blocks_high (j_frame j2) co2 -> 0 <= bx2 < blocks_wide (j_frame j2) co2 ->
  negative_samples pl1 pl2 (j_frame j1) (j_frame j2) ci1 ci2 co1 co2 by1 bx1 by2 bx2 e ->
  negative_block j1 j2 ci1 ci2 by1 bx1 by2 bx2 e.
Proof.
  intros A1 A2 O1 O2 HQ ci1 ci2 co1 co2 N1 N2 HM by1 bx1 by2 bx2 e Y1 X1 Y2 X2 HS.
  assert (M1 : nth_error (comps_of (s_sampling s1) color1) ci1 = Some co1) by (rewrite (da_frame _ _ _ _ _ _ _ A1) in N1; exact N1).
  assert (M2 : nth_error (comps_of (s_sampling s2) color2) ci2 = Some co2) by (rewrite (da_frame _ _ _ _ _ _ _ A2) in N2; exact N2).
  pose proof (da_quant _ _ _ _ _ _ _ A1 ci1 co1 M1) as Q1. pose proof (da_quant _ _ _ _ _ _ _ A2 ci2 co2 M2) as Q2. rewrite HM in Q1.
  rewrite Q1 in Q2. assert (QE : map (fun '(v, u) => quantizer s1 (co_tq co1) (Z.of_nat (8 * v + u))) zigzag = map (fun '(v, u) => quantizer s2 (co_tq co2) (Z.of_nat (8 * v + u))) zigzag) by congruence.
  clear Q2. rewrite <- HM in Q1. eexists. split; [exact Q1|]. intros k Hk.
  rewrite (da_coef _ _ _ _ _ _ _ A1 ci1 co1 by1 bx1 (Z.of_nat k) M1 Y1 X1 ltac:(lia)), (da_coef _ _ _ _ _ _ _ A2 ci2 co2 by2 bx2 (Z.of_nat k) M2 Y2 X2 ltac:(lia)).
  do 2 eexists. split; [reflexivity|]. split; [reflexivity|]. unfold expected.
  pose proof (f_equal (fun l => nth k l 0) QE) as HK. cbv beta in HK. rewrite !nth_zigzag in * by assumption. clear QE Q1.
  set (b1 := block_sample pl1 w1 h1 (hmax (frame_for s1 color1 w1 h1) / co_h co1) (vmax (frame_for s1 color1 w1 h1) / co_v co1) ci1 by1 bx1) in *.
  set (b2 := block_sample pl2 w2 h2 (hmax (frame_for s2 color2 w2 h2) / co_h co2) (vmax (frame_for s2 color2 w2 h2) / co_v co2) ci2 by2 bx2) in *.
  assert (HE : forall y x, (y < 8)%nat -> (x < 8)%nat -> Z.abs (b2 y x + b1 y x + 1) <= e).
  { intros y x Hy Hx. pose proof (HS y x Hy Hx) as E. rewrite (da_frame _ _ _ _ _ _ _ A1), (da_frame _ _ _ _ _ _ _ A2) in E. unfold sample_at in E.
    change (fr_height (frame_for s1 color1 w1 h1)) with h1 in E. change (fr_width (frame_for s1 color1 w1 h1)) with w1 in E.
    change (fr_height (frame_for s2 color2 w2 h2)) with h2 in E. change (fr_width (frame_for s2 color2 w2 h2)) with w2 in E. unfold b1, b2, block_sample.
    match type of E with Z.abs ?t <= _ => match goal with |- Z.abs ?u <= _ => replace u with t by ring end end. exact E. }
  clear HS.
  assert (R1 : forall y x, (y < 8)%nat -> (x < 8)%nat -> -128 <= b1 y x <= 127).
  { intros y x Hy Hx. destruct O1 as (W & H & P). pose proof (sample_range s1 color1 w1 h1 pl1 ci1 co1 by1 bx1 y x W H P M1 (proj1 Y1) (proj1 X1)) as R.
    unfold b1, block_sample. unfold sample_at in R. change (fr_height (frame_for s1 color1 w1 h1)) with h1 in R. change (fr_width (frame_for s1 color1 w1 h1)) with w1 in R. clear - R. lia. }
  assert (R2 : forall y x, (y < 8)%nat -> (x < 8)%nat -> -128 <= b2 y x <= 127).
  { intros y x Hy Hx. destruct O2 as (W & H & P). pose proof (sample_range s2 color2 w2 h2 pl2 ci2 co2 by2 bx2 y x W H P M2 (proj1 Y2) (proj1 X2)) as R.
    unfold b2, block_sample. unfold sample_at in R. change (fr_height (frame_for s2 color2 w2 h2)) with h2 in R. change (fr_width (frame_for s2 color2 w2 h2)) with w2 in R. clear - R. lia. }
  clearbody b1 b2. pose proof (zigzag_pos_range (Z.of_nat k) ltac:(lia)) as Hz. pose proof (zigzag_dc k) as Hz0. destruct (zigzag_pos (Z.of_nat k)) as [v u]. destruct Hz as [Hv Hu].
  cbv beta iota in HK. rewrite <- HK.
  assert (U : 1 <= quantizer s1 (co_tq co1) (Z.of_nat (8 * v + u)) <= 255).
  { split; [|apply (proj1 HQ co1 _ (nth_error_In _ _ M1)); lia]. unfold quantizer, quantizer_of, scaled. destruct (co_tq co1 =? 0); [destruct (s_luma s1)|destruct (s_chroma s1)]; lia. }
  destruct (negative_coefficient T b1 b2 v u _ e HT (conj (proj1 U) (Z.le_trans _ 255 2048 (proj2 U) ltac:(discriminate))) Hv Hu R1 R2 HE) as [D1 D2].
  split; [exact D1|]. intros E0 K0. apply D2; [exact E0|]. apply Hz0. split; assumption.
Qed.

(** ** Whole images *)
Lemma ycc_negative i r g b : Z.abs (spec_ycc i (255 - r) (255 - g) (255 - b) + spec_ycc i r g b - 255) <= 1.
Proof. destruct i as [|[|i]]; cbn [spec_ycc]; unfold spec_y, spec_cb, spec_cr; lia. Qed.
Lemma negative_plane c data1 data2 w y x ci : (ci < match spec_color c with JLuma => 1 | JYcbcr => 3 | _ => 4 end)%nat ->
  (forall i, 0 <= i < spec_bpp c -> (match c with Rgba | Bgra => i < 3 | _ => True end) ->
    pixel_byte data2 w (spec_bpp c) y x i = 255 - pixel_byte data1 w (spec_bpp c) y x i) ->
  Z.abs (spec_plane c data2 w ci y x + spec_plane c data1 w ci y x - 255) <= rounding c ci.
Proof.
  unfold spec_plane, rounding. generalize (pixel_byte data2 w (spec_bpp c) y x) (pixel_byte data1 w (spec_bpp c) y x). intros p p' L H.
  destruct c; cbn [spec_bpp spec_color] in H, L; try (rewrite (H 0), (H 1), (H 2) by lia; apply ycc_negative);
    try (rewrite (H (Z.of_nat ci)) by lia; lia); try (rewrite (H 0) by lia; lia).
  destruct (ci <? 3)%nat; [rewrite (H 0), (H 1), (H 2) by lia; apply ycc_negative|rewrite (H 3) by lia; lia].
Qed.
Lemma negative_image_core T (HT : near_exact T) s1 s2 c data1 data2 w h j1 j2 :
  decoded_with T s1 (spec_color c) w h (spec_plane c data1 w) j1 -> decoded_with T s2 (spec_color c) w h (spec_plane c data2 w) j2 ->
  planes_ok s1 (spec_color c) w h (spec_plane c data1 w) -> planes_ok s2 (spec_color c) w h (spec_plane c data2 w) -> quantizers_fit s1 (spec_color c) ->
  same_coding s1 s2 -> negative_image c data1 data2 w h -> negative_file c j1 j2.
Proof.
  intros A1 A2 O1 O2 Q S B ci co by_ bx N Hy Hx. pose proof (da_frame _ _ _ _ _ _ _ A1) as J1. pose proof (da_frame _ _ _ _ _ _ _ A2) as J2.
  destruct S as (S1 & S2 & S3 & S4).
  assert (FE : j_frame j2 = frame_for s2 (spec_color c) w h) by exact J2.
  assert (CE : comps_of (s_sampling s2) (spec_color c) = comps_of (s_sampling s1) (spec_color c)) by (rewrite S2; reflexivity).
  assert (HM : hmax (frame_for s2 (spec_color c) w h) = hmax (frame_for s1 (spec_color c) w h)) by (unfold hmax, frame_for; cbn [fr_comps]; rewrite CE; reflexivity).
  assert (VM : vmax (frame_for s2 (spec_color c) w h) = vmax (frame_for s1 (spec_color c) w h)) by (unfold vmax, frame_for; cbn [fr_comps]; rewrite CE; reflexivity).
  assert (BH : blocks_high (frame_for s2 (spec_color c) w h) co = blocks_high (frame_for s1 (spec_color c) w h) co) by (unfold blocks_high, comp_height; rewrite VM; reflexivity).
  assert (BW : blocks_wide (frame_for s2 (spec_color c) w h) co = blocks_wide (frame_for s1 (spec_color c) w h) co) by (unfold blocks_wide, comp_width; rewrite HM; reflexivity).
  assert (M1 : nth_error (comps_of (s_sampling s1) (spec_color c)) ci = Some co) by (rewrite J1 in N; exact N).
  assert (N2 : nth_error (fr_comps (j_frame j2)) ci = Some co) by (rewrite J2; unfold frame_for; cbn [fr_comps]; rewrite CE; exact M1).
  apply (negative_core T HT s1 s2 (spec_color c) (spec_color c) w h w h (spec_plane c data1 w) (spec_plane c data2 w) j1 j2 A1 A2 O1 O2 Q ci ci co co N N2); try assumption.
  - rewrite (da_quant _ _ _ _ _ _ _ A1 ci co M1). rewrite (da_quant _ _ _ _ _ _ _ A2 ci co ltac:(rewrite CE; exact M1)). f_equal. apply map_ext. intros [v u].
    unfold quantizer. rewrite S1, S3, S4. reflexivity.
  - rewrite J2, BH, <- J1. exact Hy.
  - rewrite J2, BW, <- J1. exact Hx.
  - intros y x Ly Lx. rewrite J1, J2. unfold sample_at. rewrite HM, VM.
      change (fr_height (frame_for s1 (spec_color c) w h)) with h. change (fr_width (frame_for s1 (spec_color c) w h)) with w.
      change (fr_height (frame_for s2 (spec_color c) w h)) with h. change (fr_width (frame_for s2 (spec_color c) w h)) with w.
      destruct O1 as (Hw & Hh & _). destruct (steps_exact s1 (spec_color c) w h co (nth_error_In _ _ M1)) as (_ & _ & Px & Py & _). unfold step_x, step_y in Px, Py.
      pose proof (nonneg8 by_ y _ (proj1 Hy) (Z.lt_le_incl _ _ Py)) as R1. pose proof (nonneg8 bx x _ (proj1 Hx) (Z.lt_le_incl _ _ Px)) as R2.
      generalize dependent ((8 * by_ + Z.of_nat y) * (vmax (frame_for s1 (spec_color c) w h) / co_v co)). intros Yc R1.
      generalize dependent ((8 * bx + Z.of_nat x) * (hmax (frame_for s1 (spec_color c) w h) / co_h co)). intros Xc R2.
      apply negative_plane.
    + assert (L : (ci < length (comps_of (s_sampling s1) (spec_color c)))%nat) by (apply nth_error_Some; congruence).
        unfold comps_of in L. destruct (factors (s_sampling s1)). destruct (spec_color c); exact L.
    + intros i Hi Hc. apply B; try assumption; clear - R1 R2 Hw Hh; lia.
Qed.

(** ** C76
    Two successful calls, of any formats, settings and dimensions, and a block of each file: if the samples are 255
    minus each other, up to [e], the dequantized coefficients are the opposites, up to 8 (e + 1) and two steps. *)
Definition blocks_negative (run1 run2 : list Z * outcome unit) (pl1 pl2 : planes) : Prop :=
  exists b1 b2 j1 j2, run1 = (b1, Ok tt) /\ decode b1 = Some j1 /\ run2 = (b2, Ok tt) /\ decode b2 = Some j2 /\
    forall ci1 ci2 co1 co2, nth_error (fr_comps (j_frame j1)) ci1 = Some co1 -> nth_error (fr_comps (j_frame j2)) ci2 = Some co2 ->
    quant j1 ci1 = quant j2 ci2 ->
    forall by1 bx1 by2 bx2 e,
    0 <= by1 < blocks_high (j_frame j1) co1 -> 0 <= bx1 < blocks_wide (j_frame j1) co1 ->
    0 <= by2 < blocks_high (j_frame j2) co2 -> 0 <= bx2 < blocks_wide (j_frame j2) co2 ->
    negative_samples pl1 pl2 (j_frame j1) (j_frame j2) ci1 ci2 co1 co2 by1 bx1 by2 bx2 e ->
    negative_block j1 j2 ci1 ci2 by1 bx1 by2 bx2 e.
Lemma negative_with T (HT : near_exact T) s1 s2 color1 color2 w1 h1 w2 h2 pl1 pl2 run1 run2 :
  planes_ok s1 color1 w1 h1 pl1 -> planes_ok s2 color2 w2 h2 pl2 -> quantizers_fit s1 color1 ->
  gives T s1 color1 w1 h1 pl1 run1 -> gives T s2 color2 w2 h2 pl2 run2 -> blocks_negative run1 run2 pl1 pl2.
Proof.
  intros O1 O2 Q (b1 & j1 & E1 & D1 & A1) (b2 & j2 & E2 & D2 & A2). exists b1, b2, j1, j2.
  split; [exact E1|]. split; [exact D1|]. split; [exact E2|]. split; [exact D2|].
  exact (negative_core T HT _ _ _ _ _ _ _ _ _ _ _ _ A1 A2 O1 O2 Q).
Qed.
Theorem C76_blocks : forall P1 P2 q1 calls1 q2 calls2 c1 c2 data1 w1 h1 data2 w2 h2,
  let s1 := settings_of q1 calls1 in let s2 := settings_of q2 calls2 in
  valid_call P1 q1 calls1 data1 w1 h1 c1 -> generated P1 q1 calls1 data1 w1 h1 c1 -> valid_call P2 q2 calls2 data2 w2 h2 c2 -> generated P2 q2 calls2 data2 w2 h2 c2 ->
  representable int_dct s1 (spec_color c1) (spec_plane c1 data1 w1) w1 h1 ->
  representable int_dct s2 (spec_color c2) (spec_plane c2 data2 w2) w2 h2 ->
  blocks_negative (exec (run_encode P1 q1 calls1 data1 w1 h1 c1)) (exec (run_encode P2 q2 calls2 data2 w2 h2 c2))
               (spec_plane c1 data1 w1) (spec_plane c2 data2 w2).
Proof.
  intros P1 P2 q1 calls1 q2 calls2 c1 c2 data1 w1 h1 data2 w2 h2 s1 s2 [C1 V1 F1] Gn1 [C2 V2 F2] Gn2 R1 R2. pose proof (proj1 R1) as Q.
  apply (C46_decodes_iff P1 q1 calls1 data1 w1 h1 c1 C1 V1 F1 Gn1) in R1. apply (C46_decodes_iff P2 q2 calls2 data2 w2 h2 c2 C2 V2 F2 Gn2) in R2.
  exact (negative_with _ int_near s1 s2 _ _ _ _ _ _ _ _ _ _ (input_ok _ _ _ _ _ s1 V1) (input_ok _ _ _ _ _ s2 V2) Q R1 R2).
Qed.
Theorem C76_blocks_image : forall P1 P2 q1 calls1 q2 calls2 im1 pl1 im2 pl2,
  let s1 := settings_of q1 calls1 in let s2 := settings_of q2 calls2 in
  Forall call_wf calls1 -> valid_buffer P1 im1 pl1 -> (s_optimize s1 = true -> countable s1 (im_color im1) (im_width im1) (im_height im1)) ->
  tables_generated s1 (im_color im1) (im_width im1) (im_height im1) (run_encode_image P1 q1 calls1 im1) ->
  Forall call_wf calls2 -> valid_buffer P2 im2 pl2 -> (s_optimize s2 = true -> countable s2 (im_color im2) (im_width im2) (im_height im2)) ->
  tables_generated s2 (im_color im2) (im_width im2) (im_height im2) (run_encode_image P2 q2 calls2 im2) ->
  representable int_dct s1 (im_color im1) pl1 (im_width im1) (im_height im1) ->
  representable int_dct s2 (im_color im2) pl2 (im_width im2) (im_height im2) ->
  blocks_negative (exec (run_encode_image P1 q1 calls1 im1)) (exec (run_encode_image P2 q2 calls2 im2)) pl1 pl2.
Proof.
  intros P1 P2 q1 calls1 q2 calls2 im1 pl1 im2 pl2 s1 s2 C1 V1 F1 Gn1 C2 V2 F2 Gn2 R1 R2. pose proof (proj1 R1) as Q.
  apply (C46_decodes_iff_image P1 q1 calls1 im1 pl1 C1 V1 F1 Gn1) in R1. apply (C46_decodes_iff_image P2 q2 calls2 im2 pl2 C2 V2 F2 Gn2) in R2.
  exact (negative_with _ int_near s1 s2 _ _ _ _ _ _ _ _ _ _ (buffer_ok _ _ _ s1 V1) (buffer_ok _ _ _ s2 V2) Q R1 R2).
Qed.
Theorem C76_blocks_simd : forall P1 P2 q1 calls1 q2 calls2 c1 c2 data1 w1 h1 data2 w2 h2,
  let s1 := settings_of q1 calls1 in let s2 := settings_of q2 calls2 in
  valid_call P1 q1 calls1 data1 w1 h1 c1 -> generated_simd P1 q1 calls1 data1 w1 h1 c1 -> valid_call P2 q2 calls2 data2 w2 h2 c2 -> generated_simd P2 q2 calls2 data2 w2 h2 c2 ->
  representable avx2_dct s1 (spec_color c1) (spec_plane c1 data1 w1) w1 h1 ->
  representable avx2_dct s2 (spec_color c2) (spec_plane c2 data2 w2) w2 h2 ->
  blocks_negative (exec (run_encode_avx2 P1 q1 calls1 data1 w1 h1 c1)) (exec (run_encode_avx2 P2 q2 calls2 data2 w2 h2 c2))
               (spec_plane c1 data1 w1) (spec_plane c2 data2 w2).
Proof.
  intros P1 P2 q1 calls1 q2 calls2 c1 c2 data1 w1 h1 data2 w2 h2 s1 s2 [C1 V1 F1] Gn1 [C2 V2 F2] Gn2 R1 R2. pose proof (proj1 R1) as Q.
  apply (C46_decodes_iff_simd P1 q1 calls1 data1 w1 h1 c1 C1 V1 F1 Gn1) in R1. apply (C46_decodes_iff_simd P2 q2 calls2 data2 w2 h2 c2 C2 V2 F2 Gn2) in R2.
  exact (negative_with _ avx2_near s1 s2 _ _ _ _ _ _ _ _ _ _ (input_ok _ _ _ _ _ s1 V1) (input_ok _ _ _ _ _ s2 V2) Q R1 R2).
Qed.

(** Whole images of one format. *)
Definition images_negative (c : ctype) (run1 run2 : list Z * outcome unit) : Prop :=
  exists b1 b2 j1 j2, run1 = (b1, Ok tt) /\ decode b1 = Some j1 /\ run2 = (b2, Ok tt) /\ decode b2 = Some j2 /\ negative_file c j1 j2.
Lemma negatives_with T (HT : near_exact T) s1 s2 c data1 data2 w h run1 run2 :
  planes_ok s1 (spec_color c) w h (spec_plane c data1 w) -> planes_ok s2 (spec_color c) w h (spec_plane c data2 w) -> quantizers_fit s1 (spec_color c) ->
  same_coding s1 s2 -> negative_image c data1 data2 w h ->
  gives T s1 (spec_color c) w h (spec_plane c data1 w) run1 -> gives T s2 (spec_color c) w h (spec_plane c data2 w) run2 -> images_negative c run1 run2.
Proof.
  intros O1 O2 Q S B (b1 & j1 & E1 & D1 & A1) (b2 & j2 & E2 & D2 & A2). exists b1, b2, j1, j2.
  split; [exact E1|]. split; [exact D1|]. split; [exact E2|]. split; [exact D2|].
  exact (negative_image_core T HT s1 s2 c data1 data2 w h j1 j2 A1 A2 O1 O2 Q S B).
Qed.
Theorem C76_image : forall P1 P2 q1 calls1 q2 calls2 c data1 data2 w h,
  let s1 := settings_of q1 calls1 in let s2 := settings_of q2 calls2 in
  valid_call P1 q1 calls1 data1 w h c -> generated P1 q1 calls1 data1 w h c -> valid_call P2 q2 calls2 data2 w h c -> generated P2 q2 calls2 data2 w h c ->
  representable int_dct s1 (spec_color c) (spec_plane c data1 w) w h -> representable int_dct s2 (spec_color c) (spec_plane c data2 w) w h ->
  same_coding s1 s2 -> negative_image c data1 data2 w h ->
  images_negative c (exec (run_encode P1 q1 calls1 data1 w h c)) (exec (run_encode P2 q2 calls2 data2 w h c)).
Proof.
  intros P1 P2 q1 calls1 q2 calls2 c data1 data2 w h s1 s2 [C1 V1 F1] Gn1 [C2 V2 F2] Gn2 R1 R2 S B. pose proof (proj1 R1) as Q.
  apply (C46_decodes_iff P1 q1 calls1 data1 w h c C1 V1 F1 Gn1) in R1. apply (C46_decodes_iff P2 q2 calls2 data2 w h c C2 V2 F2 Gn2) in R2.
  exact (negatives_with _ int_near s1 s2 c data1 data2 w h _ _ (input_ok _ _ _ _ _ s1 V1) (input_ok _ _ _ _ _ s2 V2) Q S B R1 R2).
Qed.
Theorem C76_image_simd : forall P1 P2 q1 calls1 q2 calls2 c data1 data2 w h,
  let s1 := settings_of q1 calls1 in let s2 := settings_of q2 calls2 in
  valid_call P1 q1 calls1 data1 w h c -> generated_simd P1 q1 calls1 data1 w h c -> valid_call P2 q2 calls2 data2 w h c -> generated_simd P2 q2 calls2 data2 w h c ->
  representable avx2_dct s1 (spec_color c) (spec_plane c data1 w) w h -> representable avx2_dct s2 (spec_color c) (spec_plane c data2 w) w h ->
  same_coding s1 s2 -> negative_image c data1 data2 w h ->
  images_negative c (exec (run_encode_avx2 P1 q1 calls1 data1 w h c)) (exec (run_encode_avx2 P2 q2 calls2 data2 w h c)).
Proof.
  intros P1 P2 q1 calls1 q2 calls2 c data1 data2 w h s1 s2 [C1 V1 F1] Gn1 [C2 V2 F2] Gn2 R1 R2 S B. pose proof (proj1 R1) as Q.
  apply (C46_decodes_iff_simd P1 q1 calls1 data1 w h c C1 V1 F1 Gn1) in R1. apply (C46_decodes_iff_simd P2 q2 calls2 data2 w h c C2 V2 F2 Gn2) in R2.
  exact (negatives_with _ avx2_near s1 s2 c data1 data2 w h _ _ (input_ok _ _ _ _ _ s1 V1) (input_ok _ _ _ _ _ s2 V2) Q S B R1 R2).
Qed.

(** ** A concrete case: 9 x 17 RGB pixels and their negative; 4:2:0, baseline and progressive *)
Definition negative_bytes : list Z := map (fun b => 255 - b) light_bytes.
Example C76_case :
  negative_image Rgb light_bytes negative_bytes 9 17 /\
  images_negative Rgb (exec (run_encode debug64 60 [CSampling F_2_2] light_bytes 9 17 Rgb))
                      (exec (run_encode release32 60 [CSampling F_2_2; CScans 4; CRestart 1] negative_bytes 9 17 Rgb)).
Proof.
  assert (G : negative_image Rgb light_bytes negative_bytes 9 17).
  { intros y x i Hy Hx Hi _. cbn [spec_bpp] in *.
    pose proof (zall (fun n => forallb (fun i => pixel_byte negative_bytes 9 3 (n / 9) (n mod 9) i =? 255 - pixel_byte light_bytes 9 3 (n / 9) (n mod 9) i) [0; 1; 2]) 0 153
      ltac:(vm_compute; reflexivity) (9 * y + x) ltac:(lia)) as K. cbv beta in K.
    replace ((9 * y + x) / 9) with y in K by (rewrite Z.mul_comm, Z.add_comm, Z.div_add, Z.div_small by lia; lia).
    replace ((9 * y + x) mod 9) with x in K by (rewrite Z.mul_comm, Z.add_comm, Z.mod_add, Z.mod_small by lia; lia).
    rewrite forallb_forall in K. apply Z.eqb_eq, K. assert (i = 0 \/ i = 1 \/ i = 2) as [->|[->| ->]] by lia; cbn; auto. }
  split; [exact G|]. apply C76_image.
  - constructor; [repeat constructor| |discriminate]. constructor; try (vm_compute; split; discriminate); [now right| |vm_compute; discriminate].
    apply bytes_by_check. vm_compute. reflexivity.
  - discriminate.
  - constructor; [repeat (constructor; [cbn; unfold is_u16; lia|]); constructor| |discriminate]. constructor; try (vm_compute; split; discriminate); [now left| |vm_compute; discriminate].
    apply bytes_by_check. vm_compute. reflexivity.
  - discriminate.
  - apply colour_fits; try reflexivity; vm_compute; reflexivity.
  - apply colour_fits; try reflexivity; try (vm_compute; reflexivity). vm_compute. discriminate.
  - repeat split; reflexivity.
  - exact G.
Qed.
