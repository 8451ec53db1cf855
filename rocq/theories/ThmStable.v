(** C73: small changes of the samples change the coefficients little. *)
From Verif Require Import T81 SFile SEncode SHuff SAvx2 SSize SRestart SDecide SLocal SReal SStable MAvx2 PAvx2 PAvxDct PSmall PRest PDecide PCount PMax PPlat PMove PStable
  ThmRound ThmQuant ThmScan ThmHuff ThmBytes ThmRestart ThmDecide ThmAvx2 ThmAll ThmLocal ThmReal ThmGrey ThmDecoder ThmBright ThmMove.
From Coq Require Import ZArith List Bool Lia ZifyBool ZifyNat.
Import ListNotations.
Open Scope Z_scope.

(** ** One block *)
Lemma close_core T (HT : near_exact T) s1 s2 color1 color2 w1 h1 w2 h2 pl1 pl2 j1 j2 :
  decoded_with T s1 color1 w1 h1 pl1 j1 -> decoded_with T s2 color2 w2 h2 pl2 j2 ->
  planes_ok s1 color1 w1 h1 pl1 -> planes_ok s2 color2 w2 h2 pl2 -> quantizers_fit s1 color1 ->
  forall ci1 ci2 co1 co2, nth_error (fr_comps (j_frame j1)) ci1 = Some co1 -> nth_error (fr_comps (j_frame j2)) ci2 = Some co2 ->
  quant j1 ci1 = quant j2 ci2 ->
  forall by1 bx1 by2 bx2 e t,
  0 <= by1 < blocks_high (j_frame j1) co1 -> 0 <= bx1 < blocks_wide (j_frame j1) co1 ->
  0 <= by2 < blocks_high (j_frame j2) co2 -> 0 <= bx2 < blocks_wide (j_frame j2) co2 ->
  close_samples pl1 pl2 (j_frame j1) (j_frame j2) ci1 ci2 co1 co2 by1 bx1 by2 bx2 e t ->
  close_block j1 j2 ci1 ci2 by1 bx1 by2 bx2 e t.
Proof.
  intros A1 A2 O1 O2 HQ ci1 ci2 co1 co2 N1 N2 HM by1 bx1 by2 bx2 e t Y1 X1 Y2 X2 HS.
  assert (M1 : nth_error (comps_of (s_sampling s1) color1) ci1 = Some co1) by (rewrite (da_frame _ _ _ _ _ _ _ A1) in N1; exact N1).
  assert (M2 : nth_error (comps_of (s_sampling s2) color2) ci2 = Some co2) by (rewrite (da_frame _ _ _ _ _ _ _ A2) in N2; exact N2).
  pose proof (da_quant _ _ _ _ _ _ _ A1 ci1 co1 M1) as Q1. pose proof (da_quant _ _ _ _ _ _ _ A2 ci2 co2 M2) as Q2. rewrite HM in Q1.
  rewrite Q1 in Q2. assert (QE : map (fun '(v, u) => quantizer s1 (co_tq co1) (Z.of_nat (8 * v + u))) zigzag = map (fun '(v, u) => quantizer s2 (co_tq co2) (Z.of_nat (8 * v + u))) zigzag) by congruence.
  clear Q2. rewrite <- HM in Q1. eexists. split; [exact Q1|]. intros k Hk.
  rewrite (da_coef _ _ _ _ _ _ _ A1 ci1 co1 by1 bx1 (Z.of_nat k) M1 Y1 X1 ltac:(lia)), (da_coef _ _ _ _ _ _ _ A2 ci2 co2 by2 bx2 (Z.of_nat k) M2 Y2 X2 ltac:(lia)).
  do 2 eexists. split; [reflexivity|]. split; [reflexivity|]. unfold expected.
  pose proof (f_equal (fun l => nth k l 0) QE) as HK. cbv beta in HK. rewrite !nth_zigzag in * by assumption. clear QE Q1.
  set (b1 := block_sample pl1 w1 h1 (hmax (frame_for s1 color1 w1 h1) / co_h co1) (vmax (frame_for s1 color1 w1 h1) / co_v co1) ci1 by1 bx1) in *.
  set (b2 := block_sample pl2 w2 h2 (hmax (frame_for s2 color2 w2 h2) / co_h co2) (vmax (frame_for s2 color2 w2 h2) / co_v co2) ci2 by2 bx2) in *.
  assert (EB : forall y x, sample_at pl2 (j_frame j2) ci2 co2 by2 bx2 y x - sample_at pl1 (j_frame j1) ci1 co1 by1 bx1 y x = b2 y x - b1 y x).
  { intros y x. rewrite (da_frame _ _ _ _ _ _ _ A1), (da_frame _ _ _ _ _ _ _ A2). unfold sample_at.
    change (fr_height (frame_for s1 color1 w1 h1)) with h1. change (fr_width (frame_for s1 color1 w1 h1)) with w1.
    change (fr_height (frame_for s2 color2 w2 h2)) with h2. change (fr_width (frame_for s2 color2 w2 h2)) with w2. unfold b1, b2, block_sample. ring. }
  assert (HE : forall y x, (y < 8)%nat -> (x < 8)%nat -> Z.abs (b2 y x - b1 y x) <= e) by (intros y x Hy Hx; rewrite <- EB; exact (proj1 HS y x Hy Hx)).
  assert (HT' : sum8 (fun y => sum8 (fun x => Z.abs (b2 y x - b1 y x))) <= t).
  { rewrite <- (sum8_ext _ _ (fun y => sum8_ext _ _ (fun x => f_equal Z.abs (EB y x)))). exact (proj2 HS). }
  clear EB HS.
  assert (R1 : forall y x, (y < 8)%nat -> (x < 8)%nat -> -128 <= b1 y x <= 127).
  { intros y x Hy Hx. destruct O1 as (W & H & P). pose proof (sample_range s1 color1 w1 h1 pl1 ci1 co1 by1 bx1 y x W H P M1 (proj1 Y1) (proj1 X1)) as R.
    unfold b1, block_sample. unfold sample_at in R. change (fr_height (frame_for s1 color1 w1 h1)) with h1 in R. change (fr_width (frame_for s1 color1 w1 h1)) with w1 in R. clear - R. lia. }
  assert (R2 : forall y x, (y < 8)%nat -> (x < 8)%nat -> -128 <= b2 y x <= 127).
  { intros y x Hy Hx. destruct O2 as (W & H & P). pose proof (sample_range s2 color2 w2 h2 pl2 ci2 co2 by2 bx2 y x W H P M2 (proj1 Y2) (proj1 X2)) as R.
    unfold b2, block_sample. unfold sample_at in R. change (fr_height (frame_for s2 color2 w2 h2)) with h2 in R. change (fr_width (frame_for s2 color2 w2 h2)) with w2 in R. clear - R. lia. }
  clearbody b1 b2. pose proof (zigzag_pos_range (Z.of_nat k) ltac:(lia)) as Hz. destruct (zigzag_pos (Z.of_nat k)) as [v u]. destruct Hz as [Hv Hu].
  cbv beta iota in HK. rewrite <- HK.
  assert (U : 1 <= quantizer s1 (co_tq co1) (Z.of_nat (8 * v + u)) <= 255).
  { split; [|apply (proj1 HQ co1 _ (nth_error_In _ _ M1)); lia]. unfold quantizer, quantizer_of, scaled. destruct (co_tq co1 =? 0); [destruct (s_luma s1)|destruct (s_chroma s1)]; lia. }
  exact (close_coefficient T b1 b2 v u _ e t HT (conj (proj1 U) (Z.le_trans _ 255 2048 (proj2 U) ltac:(discriminate))) Hv Hu R1 R2 HE HT').
Qed.

(** ** Whole images *)
Lemma ycc_close i e r g b r' g' b' : Z.abs (r' - r) <= e -> Z.abs (g' - g) <= e -> Z.abs (b' - b) <= e -> Z.abs (spec_ycc i r' g' b' - spec_ycc i r g b) <= e.
Proof. intros R G B. destruct i as [|[|i]]; cbn [spec_ycc]; unfold spec_y, spec_cb, spec_cr; lia. Qed.
Lemma close_plane c data1 data2 w y x e ci : (ci < match spec_color c with JLuma => 1 | JYcbcr => 3 | _ => 4 end)%nat ->
  (forall i, 0 <= i < spec_bpp c -> (match c with Rgba | Bgra => i < 3 | _ => True end) ->
    Z.abs (pixel_byte data2 w (spec_bpp c) y x i - pixel_byte data1 w (spec_bpp c) y x i) <= e) ->
  Z.abs (spec_plane c data2 w ci y x - spec_plane c data1 w ci y x) <= e.
Proof.
  unfold spec_plane. generalize (pixel_byte data2 w (spec_bpp c) y x) (pixel_byte data1 w (spec_bpp c) y x). intros p p' L H.
  destruct c; cbn [spec_bpp spec_color] in H, L; try (apply ycc_close; apply H; lia); try (apply H; lia).
  - specialize (H (Z.of_nat ci)). lia.
  - destruct (ci <? 3)%nat; [apply ycc_close; apply H; lia|]. specialize (H 3). lia.
Qed.
Lemma close_image_core T (HT : near_exact T) s1 s2 c data1 data2 w h e j1 j2 :
  decoded_with T s1 (spec_color c) w h (spec_plane c data1 w) j1 -> decoded_with T s2 (spec_color c) w h (spec_plane c data2 w) j2 ->
  planes_ok s1 (spec_color c) w h (spec_plane c data1 w) -> planes_ok s2 (spec_color c) w h (spec_plane c data2 w) -> quantizers_fit s1 (spec_color c) ->
  same_coding s1 s2 -> close_image c data1 data2 w h e -> close_file j1 j2 e.
Proof.
  intros A1 A2 O1 O2 Q S B ci co by_ bx N Hy Hx. pose proof (da_frame _ _ _ _ _ _ _ A1) as J1. pose proof (da_frame _ _ _ _ _ _ _ A2) as J2.
  destruct S as (S1 & S2 & S3 & S4).
  assert (FE : j_frame j2 = frame_for s2 (spec_color c) w h) by exact J2.
  assert (CE : comps_of (s_sampling s2) (spec_color c) = comps_of (s_sampling s1) (spec_color c)) by (rewrite S2; reflexivity).
  assert (HM : hmax (frame_for s2 (spec_color c) w h) = hmax (frame_for s1 (spec_color c) w h)) by (unfold hmax, frame_for; cbn [fr_comps]; rewrite CE; reflexivity).
  assert (VM : vmax (frame_for s2 (spec_color c) w h) = vmax (frame_for s1 (spec_color c) w h)) by (unfold vmax, frame_for; cbn [fr_comps]; rewrite CE; reflexivity).
  assert (BH : blocks_high (frame_for s2 (spec_color c) w h) co = blocks_high (frame_for s1 (spec_color c) w h) co) by (unfold blocks_high, comp_height; rewrite VM; reflexivity).
  assert (BW : blocks_wide (frame_for s2 (spec_color c) w h) co = blocks_wide (frame_for s1 (spec_color c) w h) co) by (unfold blocks_wide, comp_width; rewrite HM; reflexivity).
  assert (M1 : nth_error (comps_of (s_sampling s1) (spec_color c)) ci = Some co) by (rewrite J1 in N; exact N).
  assert (N2 : nth_error (fr_comps (j_frame j2)) ci = Some co) by (rewrite J2; unfold frame_for; cbn [fr_comps]; rewrite CE; exact M1).
  apply (close_core T HT s1 s2 (spec_color c) (spec_color c) w h w h (spec_plane c data1 w) (spec_plane c data2 w) j1 j2 A1 A2 O1 O2 Q ci ci co co N N2); try assumption.
  - rewrite (da_quant _ _ _ _ _ _ _ A1 ci co M1). rewrite (da_quant _ _ _ _ _ _ _ A2 ci co ltac:(rewrite CE; exact M1)). f_equal. apply map_ext. intros [v u].
    unfold quantizer. rewrite S1, S3, S4. reflexivity.
  - rewrite J2, BH, <- J1. exact Hy.
  - rewrite J2, BW, <- J1. exact Hx.
  - assert (G : forall y x, (y < 8)%nat -> (x < 8)%nat ->
      Z.abs (sample_at (spec_plane c data2 w) (j_frame j2) ci co by_ bx y x - sample_at (spec_plane c data1 w) (j_frame j1) ci co by_ bx y x) <= e).
    { intros y x Ly Lx. rewrite J1, J2. unfold sample_at. rewrite HM, VM.
      change (fr_height (frame_for s1 (spec_color c) w h)) with h. change (fr_width (frame_for s1 (spec_color c) w h)) with w.
      change (fr_height (frame_for s2 (spec_color c) w h)) with h. change (fr_width (frame_for s2 (spec_color c) w h)) with w.
      destruct O1 as (Hw & Hh & _). destruct (steps_exact s1 (spec_color c) w h co (nth_error_In _ _ M1)) as (_ & _ & Px & Py & _). unfold step_x, step_y in Px, Py.
      pose proof (nonneg8 by_ y _ (proj1 Hy) (Z.lt_le_incl _ _ Py)) as R1. pose proof (nonneg8 bx x _ (proj1 Hx) (Z.lt_le_incl _ _ Px)) as R2.
      generalize dependent ((8 * by_ + Z.of_nat y) * (vmax (frame_for s1 (spec_color c) w h) / co_v co)). intros Yc R1.
      generalize dependent ((8 * bx + Z.of_nat x) * (hmax (frame_for s1 (spec_color c) w h) / co_h co)). intros Xc R2.
      apply close_plane.
      - assert (L : (ci < length (comps_of (s_sampling s1) (spec_color c)))%nat) by (apply nth_error_Some; congruence).
        unfold comps_of in L. destruct (factors (s_sampling s1)). destruct (spec_color c); exact L.
      - intros i Hi Hc. apply B; try assumption; clear - R1 R2 Hw Hh; lia. }
    split; [exact G|]. cbv zeta.
    apply Z.le_trans with (sum8 (fun _ => sum8 (fun _ => e))); [|unfold sum8; clear; lia].
    apply sum_mono. intros y Ly. apply sum_mono. intros x Lx. exact (G y x Ly Lx).
Qed.

(** ** C73
    Two successful calls, of any formats, settings and dimensions, and a block of each file: if the samples differ by at
    most [e] each and by [t] in all, the dequantized coefficients differ by at most 8 e and t / 4, plus two steps. *)
Definition blocks_close (run1 run2 : list Z * outcome unit) (pl1 pl2 : planes) : Prop :=
  exists b1 b2 j1 j2, run1 = (b1, Ok tt) /\ decode b1 = Some j1 /\ run2 = (b2, Ok tt) /\ decode b2 = Some j2 /\
    forall ci1 ci2 co1 co2, nth_error (fr_comps (j_frame j1)) ci1 = Some co1 -> nth_error (fr_comps (j_frame j2)) ci2 = Some co2 ->
    quant j1 ci1 = quant j2 ci2 ->
    forall by1 bx1 by2 bx2 e t,
    0 <= by1 < blocks_high (j_frame j1) co1 -> 0 <= bx1 < blocks_wide (j_frame j1) co1 ->
    0 <= by2 < blocks_high (j_frame j2) co2 -> 0 <= bx2 < blocks_wide (j_frame j2) co2 ->
    close_samples pl1 pl2 (j_frame j1) (j_frame j2) ci1 ci2 co1 co2 by1 bx1 by2 bx2 e t ->
    close_block j1 j2 ci1 ci2 by1 bx1 by2 bx2 e t.
Lemma close_with T (HT : near_exact T) s1 s2 color1 color2 w1 h1 w2 h2 pl1 pl2 run1 run2 :
  planes_ok s1 color1 w1 h1 pl1 -> planes_ok s2 color2 w2 h2 pl2 -> quantizers_fit s1 color1 ->
  gives T s1 color1 w1 h1 pl1 run1 -> gives T s2 color2 w2 h2 pl2 run2 -> blocks_close run1 run2 pl1 pl2.
Proof.
  intros O1 O2 Q (b1 & j1 & E1 & D1 & A1) (b2 & j2 & E2 & D2 & A2). exists b1, b2, j1, j2.
  split; [exact E1|]. split; [exact D1|]. split; [exact E2|]. split; [exact D2|].
  exact (close_core T HT _ _ _ _ _ _ _ _ _ _ _ _ A1 A2 O1 O2 Q).
Qed.
Theorem C73_blocks : forall P1 P2 q1 calls1 q2 calls2 c1 c2 data1 w1 h1 data2 w2 h2,
  let s1 := settings_of q1 calls1 in let s2 := settings_of q2 calls2 in
  valid_call P1 q1 calls1 data1 w1 h1 c1 -> generated P1 q1 calls1 data1 w1 h1 c1 -> valid_call P2 q2 calls2 data2 w2 h2 c2 -> generated P2 q2 calls2 data2 w2 h2 c2 ->
  representable int_dct s1 (spec_color c1) (spec_plane c1 data1 w1) w1 h1 ->
  representable int_dct s2 (spec_color c2) (spec_plane c2 data2 w2) w2 h2 ->
  blocks_close (exec (run_encode P1 q1 calls1 data1 w1 h1 c1)) (exec (run_encode P2 q2 calls2 data2 w2 h2 c2))
               (spec_plane c1 data1 w1) (spec_plane c2 data2 w2).
Proof.
  intros P1 P2 q1 calls1 q2 calls2 c1 c2 data1 w1 h1 data2 w2 h2 s1 s2 [C1 V1 F1] Gn1 [C2 V2 F2] Gn2 R1 R2. pose proof (proj1 R1) as Q.
  apply (C46_decodes_iff P1 q1 calls1 data1 w1 h1 c1 C1 V1 F1 Gn1) in R1. apply (C46_decodes_iff P2 q2 calls2 data2 w2 h2 c2 C2 V2 F2 Gn2) in R2.
  exact (close_with _ int_near s1 s2 _ _ _ _ _ _ _ _ _ _ (input_ok _ _ _ _ _ s1 V1) (input_ok _ _ _ _ _ s2 V2) Q R1 R2).
Qed.
Theorem C73_blocks_image : forall P1 P2 q1 calls1 q2 calls2 im1 pl1 im2 pl2,
  let s1 := settings_of q1 calls1 in let s2 := settings_of q2 calls2 in
  Forall call_wf calls1 -> valid_buffer P1 im1 pl1 -> (s_optimize s1 = true -> countable s1 (im_color im1) (im_width im1) (im_height im1)) ->
  tables_generated s1 (im_color im1) (im_width im1) (im_height im1) (run_encode_image P1 q1 calls1 im1) ->
  Forall call_wf calls2 -> valid_buffer P2 im2 pl2 -> (s_optimize s2 = true -> countable s2 (im_color im2) (im_width im2) (im_height im2)) ->
  tables_generated s2 (im_color im2) (im_width im2) (im_height im2) (run_encode_image P2 q2 calls2 im2) ->
  representable int_dct s1 (im_color im1) pl1 (im_width im1) (im_height im1) ->
  representable int_dct s2 (im_color im2) pl2 (im_width im2) (im_height im2) ->
  blocks_close (exec (run_encode_image P1 q1 calls1 im1)) (exec (run_encode_image P2 q2 calls2 im2)) pl1 pl2.
Proof.
  intros P1 P2 q1 calls1 q2 calls2 im1 pl1 im2 pl2 s1 s2 C1 V1 F1 Gn1 C2 V2 F2 Gn2 R1 R2. pose proof (proj1 R1) as Q.
  apply (C46_decodes_iff_image P1 q1 calls1 im1 pl1 C1 V1 F1 Gn1) in R1. apply (C46_decodes_iff_image P2 q2 calls2 im2 pl2 C2 V2 F2 Gn2) in R2.
  exact (close_with _ int_near s1 s2 _ _ _ _ _ _ _ _ _ _ (buffer_ok _ _ _ s1 V1) (buffer_ok _ _ _ s2 V2) Q R1 R2).
Qed.
Theorem C73_blocks_simd : forall P1 P2 q1 calls1 q2 calls2 c1 c2 data1 w1 h1 data2 w2 h2,
  let s1 := settings_of q1 calls1 in let s2 := settings_of q2 calls2 in
  valid_call P1 q1 calls1 data1 w1 h1 c1 -> generated_simd P1 q1 calls1 data1 w1 h1 c1 -> valid_call P2 q2 calls2 data2 w2 h2 c2 -> generated_simd P2 q2 calls2 data2 w2 h2 c2 ->
  representable avx2_dct s1 (spec_color c1) (spec_plane c1 data1 w1) w1 h1 ->
  representable avx2_dct s2 (spec_color c2) (spec_plane c2 data2 w2) w2 h2 ->
  blocks_close (exec (run_encode_avx2 P1 q1 calls1 data1 w1 h1 c1)) (exec (run_encode_avx2 P2 q2 calls2 data2 w2 h2 c2))
               (spec_plane c1 data1 w1) (spec_plane c2 data2 w2).
Proof.
  intros P1 P2 q1 calls1 q2 calls2 c1 c2 data1 w1 h1 data2 w2 h2 s1 s2 [C1 V1 F1] Gn1 [C2 V2 F2] Gn2 R1 R2. pose proof (proj1 R1) as Q.
  apply (C46_decodes_iff_simd P1 q1 calls1 data1 w1 h1 c1 C1 V1 F1 Gn1) in R1. apply (C46_decodes_iff_simd P2 q2 calls2 data2 w2 h2 c2 C2 V2 F2 Gn2) in R2.
  exact (close_with _ avx2_near s1 s2 _ _ _ _ _ _ _ _ _ _ (input_ok _ _ _ _ _ s1 V1) (input_ok _ _ _ _ _ s2 V2) Q R1 R2).
Qed.

(** Whole images of one format: no byte changes by more than [e]. *)
Definition images_close (run1 run2 : list Z * outcome unit) (e : Z) : Prop :=
  exists b1 b2 j1 j2, run1 = (b1, Ok tt) /\ decode b1 = Some j1 /\ run2 = (b2, Ok tt) /\ decode b2 = Some j2 /\ close_file j1 j2 e.
Lemma images_with T (HT : near_exact T) s1 s2 c data1 data2 w h e run1 run2 :
  planes_ok s1 (spec_color c) w h (spec_plane c data1 w) -> planes_ok s2 (spec_color c) w h (spec_plane c data2 w) -> quantizers_fit s1 (spec_color c) ->
  same_coding s1 s2 -> close_image c data1 data2 w h e ->
  gives T s1 (spec_color c) w h (spec_plane c data1 w) run1 -> gives T s2 (spec_color c) w h (spec_plane c data2 w) run2 -> images_close run1 run2 e.
Proof.
  intros O1 O2 Q S B (b1 & j1 & E1 & D1 & A1) (b2 & j2 & E2 & D2 & A2). exists b1, b2, j1, j2.
  split; [exact E1|]. split; [exact D1|]. split; [exact E2|]. split; [exact D2|].
  exact (close_image_core T HT s1 s2 c data1 data2 w h e j1 j2 A1 A2 O1 O2 Q S B).
Qed.
Theorem C73_image : forall P1 P2 q1 calls1 q2 calls2 c data1 data2 w h e,
  let s1 := settings_of q1 calls1 in let s2 := settings_of q2 calls2 in
  valid_call P1 q1 calls1 data1 w h c -> generated P1 q1 calls1 data1 w h c -> valid_call P2 q2 calls2 data2 w h c -> generated P2 q2 calls2 data2 w h c ->
  representable int_dct s1 (spec_color c) (spec_plane c data1 w) w h -> representable int_dct s2 (spec_color c) (spec_plane c data2 w) w h ->
  same_coding s1 s2 -> close_image c data1 data2 w h e ->
  images_close (exec (run_encode P1 q1 calls1 data1 w h c)) (exec (run_encode P2 q2 calls2 data2 w h c)) e.
Proof.
  intros P1 P2 q1 calls1 q2 calls2 c data1 data2 w h e s1 s2 [C1 V1 F1] Gn1 [C2 V2 F2] Gn2 R1 R2 S B. pose proof (proj1 R1) as Q.
  apply (C46_decodes_iff P1 q1 calls1 data1 w h c C1 V1 F1 Gn1) in R1. apply (C46_decodes_iff P2 q2 calls2 data2 w h c C2 V2 F2 Gn2) in R2.
  exact (images_with _ int_near s1 s2 c data1 data2 w h e _ _ (input_ok _ _ _ _ _ s1 V1) (input_ok _ _ _ _ _ s2 V2) Q S B R1 R2).
Qed.
Theorem C73_image_simd : forall P1 P2 q1 calls1 q2 calls2 c data1 data2 w h e,
  let s1 := settings_of q1 calls1 in let s2 := settings_of q2 calls2 in
  valid_call P1 q1 calls1 data1 w h c -> generated_simd P1 q1 calls1 data1 w h c -> valid_call P2 q2 calls2 data2 w h c -> generated_simd P2 q2 calls2 data2 w h c ->
  representable avx2_dct s1 (spec_color c) (spec_plane c data1 w) w h -> representable avx2_dct s2 (spec_color c) (spec_plane c data2 w) w h ->
  same_coding s1 s2 -> close_image c data1 data2 w h e ->
  images_close (exec (run_encode_avx2 P1 q1 calls1 data1 w h c)) (exec (run_encode_avx2 P2 q2 calls2 data2 w h c)) e.
Proof.
  intros P1 P2 q1 calls1 q2 calls2 c data1 data2 w h e s1 s2 [C1 V1 F1] Gn1 [C2 V2 F2] Gn2 R1 R2 S B. pose proof (proj1 R1) as Q.
  apply (C46_decodes_iff_simd P1 q1 calls1 data1 w h c C1 V1 F1 Gn1) in R1. apply (C46_decodes_iff_simd P2 q2 calls2 data2 w h c C2 V2 F2 Gn2) in R2.
  exact (images_with _ avx2_near s1 s2 c data1 data2 w h e _ _ (input_ok _ _ _ _ _ s1 V1) (input_ok _ _ _ _ _ s2 V2) Q S B R1 R2).
Qed.

(** ** A concrete case: 9 x 17 RGB pixels and the same with noise of amplitude 2; 4:2:0, baseline and progressive *)
Definition noisy_bytes : list Z := map (fun i => nth (Z.to_nat i) light_bytes 0 - (i * i + i / 7) mod 3) (upto 459).
Example C73_case :
  close_image Rgb light_bytes noisy_bytes 9 17 2 /\
  images_close (exec (run_encode debug64 60 [CSampling F_2_2] light_bytes 9 17 Rgb))
               (exec (run_encode release32 60 [CSampling F_2_2; CScans 4; CRestart 1] noisy_bytes 9 17 Rgb)) 2.
Proof.
  assert (G : close_image Rgb light_bytes noisy_bytes 9 17 2).
  { intros y x i Hy Hx Hi _. cbn [spec_bpp] in *.
    pose proof (zall (fun n => forallb (fun i => Z.abs (pixel_byte noisy_bytes 9 3 (n / 9) (n mod 9) i - pixel_byte light_bytes 9 3 (n / 9) (n mod 9) i) <=? 2) [0; 1; 2]) 0 153
      ltac:(vm_compute; reflexivity) (9 * y + x) ltac:(lia)) as K. cbv beta in K.
    replace ((9 * y + x) / 9) with y in K by (rewrite Z.mul_comm, Z.add_comm, Z.div_add, Z.div_small by lia; lia).
    replace ((9 * y + x) mod 9) with x in K by (rewrite Z.mul_comm, Z.add_comm, Z.mod_add, Z.mod_small by lia; lia).
    rewrite forallb_forall in K. apply Z.leb_le, K. assert (i = 0 \/ i = 1 \/ i = 2) as [->|[->| ->]] by lia; cbn; auto. }
  split; [exact G|]. apply C73_image.
  - constructor; [repeat constructor| |discriminate]. constructor; try (vm_compute; split; discriminate); [now right| |vm_compute; discriminate].
    apply bytes_by_check. vm_compute. reflexivity.
  - discriminate.
  - constructor; [repeat (constructor; [cbn; unfold is_u16; lia|]); constructor| |discriminate]. constructor; try (vm_compute; split; discriminate); [now left| |vm_compute; discriminate].
    apply bytes_by_check. vm_compute. reflexivity.
  - discriminate.
  - apply colour_fits; try reflexivity; vm_compute; reflexivity.
  - apply colour_fits; try reflexivity; try (vm_compute; reflexivity). vm_compute. discriminate.
  - repeat split; reflexivity.
  - exact G.
Qed.
