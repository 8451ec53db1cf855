(** C72: rotated and mirrored images; stripes and symmetric areas. *)
From Verif Require Import T81 SFile SEncode SHuff SAvx2 SSize SRestart SDecide SLocal SReal SMove MAvx2 PAvx2 PAvxDct PSmall PRest PDecide PCount PMax PPlat PMove
  ThmRound ThmQuant ThmScan ThmHuff ThmBytes ThmRestart ThmDecide ThmAvx2 ThmAll ThmLocal ThmReal ThmGrey ThmDecoder ThmBright.
From Coq Require Import ZArith List Bool Lia ZifyBool ZifyNat.
Import ListNotations.
Open Scope Z_scope.

(** ** Patterns *)
Lemma pattern_core T (HT : pattern_ok T) s color w h pl j : decoded_with T s color w h pl j ->
  forall ci co by_ bx p, nth_error (fr_comps (j_frame j)) ci = Some co ->
  0 <= by_ < blocks_high (j_frame j) co -> 0 <= bx < blocks_wide (j_frame j) co ->
  has_pattern p (sample_at pl (j_frame j) ci co by_ bx) ->
  forall k, 0 <= k < 64 -> absent p (zigzag_pos k) = true -> coef j ci by_ bx k = Some 0.
Proof.
  intros A ci co by_ bx p N Hy Hx HP k Hk HA. pose proof (da_frame _ _ _ _ _ _ _ A) as J.
  assert (M : nth_error (comps_of (s_sampling s) color) ci = Some co) by (rewrite J in N; exact N).
  rewrite (da_coef _ _ _ _ _ _ _ A ci co by_ bx k M Hy Hx Hk). f_equal. unfold expected.
  pose proof (zigzag_pos_range k Hk) as Hz. destruct (zigzag_pos k) as [v u]. destruct Hz as [Hv Hu].
  rewrite (HT p _ v u Hv Hu); [apply C15_zero| |exact HA].
  rewrite J in HP. intros y x Hy8 Hx8. specialize (HP y x Hy8 Hx8). unfold sample_at in HP.
  change (fr_height (frame_for s color w h)) with h in HP. change (fr_width (frame_for s color w h)) with w in HP.
  unfold block_sample. destruct p; rewrite HP; reflexivity.
Qed.

(** ** Motions: one block *)
Lemma nth_zigzag (f : nat * nat -> Z) k : (k < 64)%nat -> nth k (map f zigzag) 0 = f (zigzag_pos (Z.of_nat k)).
Proof.
  intros Hk. unfold zigzag_pos. rewrite Nat2Z.id. assert (L : length zigzag = 64%nat) by (vm_compute; reflexivity).
  rewrite (nth_indep _ 0 (f (0%nat, 0%nat))) by (rewrite map_length, L; exact Hk). apply map_nth.
Qed.
Lemma place_moved m y x : (y < 8)%nat -> (x < 8)%nat -> moved m 8 8 (Z.of_nat y, Z.of_nat x) = (Z.of_nat (fst (place m y x)), Z.of_nat (snd (place m y x))).
Proof. intros Hy Hx. unfold moved, place, turn. cbn [fst snd]. destruct (transpose m), (upside_down m), (mirror m); cbn [fst snd]; f_equal; lia. Qed.
Lemma place_in m y x : (y < 8)%nat -> (x < 8)%nat -> (fst (place m y x) < 8)%nat /\ (snd (place m y x) < 8)%nat.
Proof. intros Hy Hx. unfold place, turn. destruct (transpose m), (upside_down m), (mirror m); cbn [fst snd]; lia. Qed.
Lemma moved_core T (HT : near_exact T) m s1 s2 color1 color2 w1 h1 w2 h2 pl1 pl2 j1 j2 :
  decoded_with T s1 color1 w1 h1 pl1 j1 -> decoded_with T s2 color2 w2 h2 pl2 j2 ->
  planes_ok s1 color1 w1 h1 pl1 -> planes_ok s2 color2 w2 h2 pl2 -> quantizers_fit s1 color1 ->
  forall ci1 ci2 co1 co2, nth_error (fr_comps (j_frame j1)) ci1 = Some co1 -> nth_error (fr_comps (j_frame j2)) ci2 = Some co2 ->
  moved_table m j1 j2 ci1 ci2 ->
  forall by1 bx1 by2 bx2,
  0 <= by1 < blocks_high (j_frame j1) co1 -> 0 <= bx1 < blocks_wide (j_frame j1) co1 ->
  0 <= by2 < blocks_high (j_frame j2) co2 -> 0 <= bx2 < blocks_wide (j_frame j2) co2 ->
  moved_samples m pl1 pl2 (j_frame j1) (j_frame j2) ci1 ci2 co1 co2 by1 bx1 by2 bx2 ->
  moved_block m j1 j2 ci1 ci2 by1 bx1 by2 bx2.
Proof.
  intros A1 A2 O1 O2 HQ ci1 ci2 co1 co2 N1 N2 HM by1 bx1 by2 bx2 Y1 X1 Y2 X2 HS k1 k2 Hk1 Hk2 HK.
  assert (M1 : nth_error (comps_of (s_sampling s1) color1) ci1 = Some co1) by (rewrite (da_frame _ _ _ _ _ _ _ A1) in N1; exact N1).
  assert (M2 : nth_error (comps_of (s_sampling s2) color2) ci2 = Some co2) by (rewrite (da_frame _ _ _ _ _ _ _ A2) in N2; exact N2).
  rewrite (da_coef _ _ _ _ _ _ _ A1 ci1 co1 by1 bx1 k1 M1 Y1 X1 Hk1), (da_coef _ _ _ _ _ _ _ A2 ci2 co2 by2 bx2 k2 M2 Y2 X2 Hk2).
  do 2 eexists. split; [reflexivity|]. split; [reflexivity|]. unfold expected.
  specialize (HM _ _ (Z.to_nat k1) (Z.to_nat k2) (da_quant _ _ _ _ _ _ _ A1 ci1 co1 M1) (da_quant _ _ _ _ _ _ _ A2 ci2 co2 M2) ltac:(lia) ltac:(lia)).
  rewrite !nth_zigzag, !Z2Nat.id in HM by lia. specialize (HM HK).
  set (b1 := block_sample pl1 w1 h1 (hmax (frame_for s1 color1 w1 h1) / co_h co1) (vmax (frame_for s1 color1 w1 h1) / co_v co1) ci1 by1 bx1) in *.
  set (b2 := block_sample pl2 w2 h2 (hmax (frame_for s2 color2 w2 h2) / co_h co2) (vmax (frame_for s2 color2 w2 h2) / co_v co2) ci2 by2 bx2) in *.
  assert (HB : forall y x, (y < 8)%nat -> (x < 8)%nat -> b2 y x = b1 (fst (place m y x)) (snd (place m y x))).
  { intros y x Hy Hx. specialize (HS y x Hy Hx _ _ (place_moved m y x Hy Hx)). rewrite (da_frame _ _ _ _ _ _ _ A1), (da_frame _ _ _ _ _ _ _ A2) in HS. unfold sample_at in HS.
    change (fr_height (frame_for s1 color1 w1 h1)) with h1 in HS. change (fr_width (frame_for s1 color1 w1 h1)) with w1 in HS.
    change (fr_height (frame_for s2 color2 w2 h2)) with h2 in HS. change (fr_width (frame_for s2 color2 w2 h2)) with w2 in HS.
    unfold b1, b2, block_sample. rewrite HS. reflexivity. }
  assert (R1 : forall y x, (y < 8)%nat -> (x < 8)%nat -> -128 <= b1 y x <= 127).
  { intros y x Hy Hx. destruct O1 as (W & H & P). pose proof (sample_range s1 color1 w1 h1 pl1 ci1 co1 by1 bx1 y x W H P M1 (proj1 Y1) (proj1 X1)) as R.
    unfold b1, block_sample. unfold sample_at in R. change (fr_height (frame_for s1 color1 w1 h1)) with h1 in R. change (fr_width (frame_for s1 color1 w1 h1)) with w1 in R. clear - R. lia. }
  assert (R2 : forall y x, (y < 8)%nat -> (x < 8)%nat -> -128 <= b2 y x <= 127).
  { intros y x Hy Hx. rewrite (HB y x Hy Hx). destruct (place_in m y x Hy Hx). now apply R1. }
  clearbody b1 b2.
  pose proof (zigzag_pos_range k2 Hk2) as Hz. pose proof (zigzag_pos_range k1 Hk1) as Hz1. destruct (zigzag_pos k2) as [v u]. destruct Hz as [Hv Hu].
  destruct (zigzag_pos k1) as [v' u']. destruct Hz1 as [Hv' Hu']. cbv beta iota in HM. rewrite HM.
  assert (U : 1 <= quantizer s1 (co_tq co1) (Z.of_nat (8 * v' + u')) <= 255).
  { split; [|apply (proj1 HQ co1 _ (nth_error_In _ _ M1)); lia]. unfold quantizer, quantizer_of, scaled. destruct (co_tq co1 =? 0); [destruct (s_luma s1)|destruct (s_chroma s1)]; lia. }
  pose proof (moved_coefficient T m b1 b2 v u (quantizer s1 (co_tq co1) (Z.of_nat (8 * v' + u'))) HT ltac:(lia) Hv Hu R1 R2 HB) as G.
  rewrite <- HK in G. exact G.
Qed.

(** ** Motions: whole images *)
Lemma moved_plane c data1 w1 data2 w2 y x y' x' ci : (ci < match spec_color c with JLuma => 1 | JYcbcr => 3 | _ => 4 end)%nat ->
  (forall i, 0 <= i < spec_bpp c -> pixel_byte data2 w2 (spec_bpp c) y x i = pixel_byte data1 w1 (spec_bpp c) y' x' i) ->
  spec_plane c data2 w2 ci y x = spec_plane c data1 w1 ci y' x'.
Proof.
  unfold spec_plane. generalize (pixel_byte data2 w2 (spec_bpp c) y x) (pixel_byte data1 w1 (spec_bpp c) y' x'). intros p p' L H.
  destruct c; cbn [spec_bpp spec_color] in H, L; rewrite ?(H 0), ?(H 1), ?(H 2), ?(H 3) by lia; try reflexivity; rewrite ?(H (Z.of_nat ci)) by lia; reflexivity.
Qed.
Lemma full_dims s color w h co : full_resolution (frame_for s color w h) -> In co (fr_comps (frame_for s color w h)) ->
  blocks_high (frame_for s color w h) co = cdiv h 8 /\ blocks_wide (frame_for s color w h) co = cdiv w 8.
Proof.
  intros H I. destruct (H co I) as [H1 H2]. destruct (steps_exact s color w h co I) as (Ph & Pv & _ & _ & E1 & E2). unfold step_x, step_y in E1, E2. rewrite H1, Z.mul_1_l in E1. rewrite H2, Z.mul_1_l in E2.
  assert (D : forall a b, 0 < b -> cdiv (a * b) b = a).
  { intros a b Hb. unfold cdiv. replace (a * b + b - 1) with (b - 1 + a * b) by ring. rewrite Z.div_add, Z.div_small by lia. lia. }
  unfold blocks_high, blocks_wide, comp_height, comp_width. rewrite E1, E2. rewrite !D by assumption. split; reflexivity.
Qed.
Lemma same_comp s1 s2 color ci co2 : nth_error (comps_of (s_sampling s2) color) ci = Some co2 ->
  exists co1, nth_error (comps_of (s_sampling s1) color) ci = Some co1 /\ co_tq co1 = co_tq co2 /\ 
  (ci < match color with JLuma => 1 | JYcbcr => 3 | _ => 4 end)%nat.
Proof.
  unfold comps_of. destruct (factors (s_sampling s1)) as [a1 b1], (factors (s_sampling s2)) as [a2 b2].
  destruct color; (destruct ci as [|[|[|[|ci]]]]; cbn [nth_error]; intros E; try discriminate E; try (destruct ci; discriminate E);
    eexists; (split; [reflexivity|]); (split; [injection E as <-; reflexivity|lia])).
Qed.
Lemma moved_place m h1 w1 h2 w2 by2 bx2 y x :
  1 <= h1 -> 1 <= w1 -> (if transpose m then w2 = h1 /\ h2 = w1 else w2 = w1 /\ h2 = h1) -> whole_blocks m w1 h1 ->
  0 <= by2 < cdiv h2 8 -> 0 <= bx2 < cdiv w2 8 -> 0 <= y < 8 -> 0 <= x < 8 ->
  let '(by1, bx1) := moved m (cdiv h1 8) (cdiv w1 8) (by2, bx2) in let '(y', x') := moved m 8 8 (y, x) in
  moved m h1 w1 (Z.min (h2 - 1) (8 * by2 + y), Z.min (w2 - 1) (8 * bx2 + x)) = (Z.min (h1 - 1) (8 * by1 + y'), Z.min (w1 - 1) (8 * bx1 + x')) /\
  0 <= by1 < cdiv h1 8 /\ 0 <= bx1 < cdiv w1 8.
Proof.
  intros Hh Hw HD [WU WM]. unfold moved, cdiv. intros Hb Hc Hy Hx.
  destruct (transpose m), (upside_down m), (mirror m); cbn [fst snd]; destruct HD as [-> ->];
    try (specialize (WU eq_refl)); try (specialize (WM eq_refl)); (split; [f_equal; lia|lia]).
Qed.
Lemma moved_image_core T (HT : near_exact T) m s1 s2 c data1 w1 h1 data2 w2 h2 j1 j2 :
  decoded_with T s1 (spec_color c) w1 h1 (spec_plane c data1 w1) j1 -> decoded_with T s2 (spec_color c) w2 h2 (spec_plane c data2 w2) j2 ->
  planes_ok s1 (spec_color c) w1 h1 (spec_plane c data1 w1) -> planes_ok s2 (spec_color c) w2 h2 (spec_plane c data2 w2) -> quantizers_fit s1 (spec_color c) ->
  full_resolution (frame_for s1 (spec_color c) w1 h1) -> full_resolution (frame_for s2 (spec_color c) w2 h2) ->
  moved_image m c data1 w1 h1 data2 w2 h2 -> whole_blocks m w1 h1 -> moved_quantizers m s1 s2 -> moved_file m j1 j2 w1 h1 w2 h2.
Proof.
  intros A1 A2 O1 O2 HQ F1 F2 [HD HP] WB MQ ci by1 bx1 by2 bx2 Hci Hy Hx HM.
  pose proof (da_frame _ _ _ _ _ _ _ A1) as J1. pose proof (da_frame _ _ _ _ _ _ _ A2) as J2.
  assert (exists co2, nth_error (fr_comps (j_frame j2)) ci = Some co2) as [co2 N2] by (destruct (nth_error (fr_comps (j_frame j2)) ci) eqn:E; [eauto|apply nth_error_None in E; lia]).
  pose proof N2 as M2. rewrite J2 in M2. change (nth_error (comps_of (s_sampling s2) (spec_color c)) ci = Some co2) in M2.
  destruct (same_comp s1 s2 (spec_color c) ci co2 M2) as (co1 & M1 & TQ & Lci).
  assert (N1 : nth_error (fr_comps (j_frame j1)) ci = Some co1) by (rewrite J1; exact M1).
  destruct O1 as (W1 & H1 & P1). destruct O2 as (W2 & H2 & P2).
  destruct (full_dims s1 (spec_color c) w1 h1 co1 F1 (nth_error_In _ _ M1)) as [BH1 BW1]. destruct (full_dims s2 (spec_color c) w2 h2 co2 F2 (nth_error_In _ _ M2)) as [BH2 BW2].
  pose proof (moved_place m h1 w1 h2 w2 by2 bx2 0 0 H1 W1 HD WB Hy Hx ltac:(lia) ltac:(lia)) as B. rewrite HM in B. destruct (moved m 8 8 (0, 0)) in B. destruct B as (_ & B1 & B2).
  apply (moved_core T HT m s1 s2 (spec_color c) (spec_color c) w1 h1 w2 h2 (spec_plane c data1 w1) (spec_plane c data2 w2) j1 j2 A1 A2 (conj W1 (conj H1 P1)) (conj W2 (conj H2 P2)) HQ ci ci co1 co2 N1 N2);
    try (rewrite ?J1, ?J2, ?BH1, ?BW1, ?BH2, ?BW2; assumption).
  - intros q1 q2 k1 k2 E1 E2 L1 L2 K. rewrite (da_quant _ _ _ _ _ _ _ A1 ci co1 M1) in E1. rewrite (da_quant _ _ _ _ _ _ _ A2 ci co2 M2) in E2.
    assert (E1' : map (fun '(v, u) => quantizer s1 (co_tq co1) (Z.of_nat (8 * v + u))) zigzag = q1) by congruence.
    assert (E2' : map (fun '(v, u) => quantizer s2 (co_tq co2) (Z.of_nat (8 * v + u))) zigzag = q2) by congruence.
    rewrite <- E1', <- E2'. rewrite !nth_zigzag by assumption. rewrite TQ.
    pose proof (zigzag_pos_range (Z.of_nat k2) ltac:(lia)) as R. destruct (zigzag_pos (Z.of_nat k2)) as [v u]. destruct R as [Rv Ru].
    specialize (MQ (co_tq co2) v u Rv Ru). rewrite <- K in MQ. destruct (zigzag_pos (Z.of_nat k1)) as [v' u']. exact MQ.
  - intros y x Ly Lx y' x' E. rewrite J1, J2. unfold sample_at. destruct (F1 co1 (nth_error_In _ _ M1)) as [-> ->]. destruct (F2 co2 (nth_error_In _ _ M2)) as [-> ->].
    change (fr_height (frame_for s1 (spec_color c) w1 h1)) with h1. change (fr_width (frame_for s1 (spec_color c) w1 h1)) with w1.
    change (fr_height (frame_for s2 (spec_color c) w2 h2)) with h2. change (fr_width (frame_for s2 (spec_color c) w2 h2)) with w2. rewrite !Z.mul_1_r.
    pose proof (moved_place m h1 w1 h2 w2 by2 bx2 (Z.of_nat y) (Z.of_nat x) H1 W1 HD WB Hy Hx ltac:(lia) ltac:(lia)) as G. rewrite HM, E in G. destruct G as (G & _ & _).
    apply moved_plane; [exact Lci|]. intros i Hi. apply HP; [lia|lia|exact Hi|exact G].
Qed.

(** ** C72
    Stripes and symmetric areas: the frequencies that the pattern of a block excludes are zero in the file, whatever
    the quality and the mode. *)
Definition patterns_kept (run : list Z * outcome unit) (pl : planes) : Prop :=
  exists bytes j, run = (bytes, Ok tt) /\ decode bytes = Some j /\
    forall ci co by_ bx p, nth_error (fr_comps (j_frame j)) ci = Some co ->
    0 <= by_ < blocks_high (j_frame j) co -> 0 <= bx < blocks_wide (j_frame j) co ->
    has_pattern p (sample_at pl (j_frame j) ci co by_ bx) ->
    forall k, 0 <= k < 64 -> absent p (zigzag_pos k) = true -> coef j ci by_ bx k = Some 0.
Lemma patterns_with T (HT : pattern_ok T) s color w h pl run : gives T s color w h pl run -> patterns_kept run pl.
Proof. intros (b & j & E & D & A). exists b, j. split; [exact E|]. split; [exact D|]. exact (pattern_core T HT s color w h pl j A). Qed.

Theorem C72_patterns : forall P quality calls data w h c, let s := settings_of quality calls in
  valid_call P quality calls data w h c -> generated P quality calls data w h c ->
  representable int_dct s (spec_color c) (spec_plane c data w) w h ->
  patterns_kept (exec (run_encode P quality calls data w h c)) (spec_plane c data w).
Proof.
  intros P quality calls data w h c s [C V F] Gn R. apply (C46_decodes_iff P quality calls data w h c C V F Gn) in R.
  exact (patterns_with _ int_pattern s _ _ _ _ _ R).
Qed.
Theorem C72_patterns_image : forall P quality calls im pl, let s := settings_of quality calls in
  Forall call_wf calls -> valid_buffer P im pl -> (s_optimize s = true -> countable s (im_color im) (im_width im) (im_height im)) ->
  tables_generated s (im_color im) (im_width im) (im_height im) (run_encode_image P quality calls im) ->
  representable int_dct s (im_color im) pl (im_width im) (im_height im) ->
  patterns_kept (exec (run_encode_image P quality calls im)) pl.
Proof.
  intros P quality calls im pl s C V F Gn R. apply (C46_decodes_iff_image P quality calls im pl C V F Gn) in R.
  exact (patterns_with _ int_pattern s _ _ _ _ _ R).
Qed.
Theorem C72_patterns_simd : forall P quality calls data w h c, let s := settings_of quality calls in
  valid_call P quality calls data w h c -> generated_simd P quality calls data w h c ->
  representable avx2_dct s (spec_color c) (spec_plane c data w) w h ->
  patterns_kept (exec (run_encode_avx2 P quality calls data w h c)) (spec_plane c data w).
Proof.
  intros P quality calls data w h c s [C V F] Gn R. apply (C46_decodes_iff_simd P quality calls data w h c C V F Gn) in R.
  exact (patterns_with _ avx2_pattern s _ _ _ _ _ R).
Qed.

(** Two successful calls, of any formats, settings and dimensions: if the samples of a block of one file are those of a
    block of the other, rotated or mirrored, so are the coefficients, up to one quantization step. *)
Definition blocks_move (m : motion) (run1 run2 : list Z * outcome unit) (pl1 pl2 : planes) : Prop :=
  exists b1 b2 j1 j2, run1 = (b1, Ok tt) /\ decode b1 = Some j1 /\ run2 = (b2, Ok tt) /\ decode b2 = Some j2 /\
    forall ci1 ci2 co1 co2, nth_error (fr_comps (j_frame j1)) ci1 = Some co1 -> nth_error (fr_comps (j_frame j2)) ci2 = Some co2 ->
    moved_table m j1 j2 ci1 ci2 ->
    forall by1 bx1 by2 bx2,
    0 <= by1 < blocks_high (j_frame j1) co1 -> 0 <= bx1 < blocks_wide (j_frame j1) co1 ->
    0 <= by2 < blocks_high (j_frame j2) co2 -> 0 <= bx2 < blocks_wide (j_frame j2) co2 ->
    moved_samples m pl1 pl2 (j_frame j1) (j_frame j2) ci1 ci2 co1 co2 by1 bx1 by2 bx2 ->
    moved_block m j1 j2 ci1 ci2 by1 bx1 by2 bx2.
Lemma move_with T (HT : near_exact T) m s1 s2 color1 color2 w1 h1 w2 h2 pl1 pl2 run1 run2 :
  planes_ok s1 color1 w1 h1 pl1 -> planes_ok s2 color2 w2 h2 pl2 -> quantizers_fit s1 color1 ->
  gives T s1 color1 w1 h1 pl1 run1 -> gives T s2 color2 w2 h2 pl2 run2 -> blocks_move m run1 run2 pl1 pl2.
Proof.
  intros O1 O2 Q (b1 & j1 & E1 & D1 & A1) (b2 & j2 & E2 & D2 & A2). exists b1, b2, j1, j2.
  split; [exact E1|]. split; [exact D1|]. split; [exact E2|]. split; [exact D2|].
  exact (moved_core T HT m _ _ _ _ _ _ _ _ _ _ _ _ A1 A2 O1 O2 Q).
Qed.
Theorem C72_blocks : forall m P1 P2 q1 calls1 q2 calls2 c1 c2 data1 w1 h1 data2 w2 h2,
  let s1 := settings_of q1 calls1 in let s2 := settings_of q2 calls2 in
  valid_call P1 q1 calls1 data1 w1 h1 c1 -> generated P1 q1 calls1 data1 w1 h1 c1 -> valid_call P2 q2 calls2 data2 w2 h2 c2 -> generated P2 q2 calls2 data2 w2 h2 c2 ->
  representable int_dct s1 (spec_color c1) (spec_plane c1 data1 w1) w1 h1 ->
  representable int_dct s2 (spec_color c2) (spec_plane c2 data2 w2) w2 h2 ->
  blocks_move m (exec (run_encode P1 q1 calls1 data1 w1 h1 c1)) (exec (run_encode P2 q2 calls2 data2 w2 h2 c2))
              (spec_plane c1 data1 w1) (spec_plane c2 data2 w2).
Proof.
  intros m P1 P2 q1 calls1 q2 calls2 c1 c2 data1 w1 h1 data2 w2 h2 s1 s2 [C1 V1 F1] Gn1 [C2 V2 F2] Gn2 R1 R2. pose proof (proj1 R1) as Q.
  apply (C46_decodes_iff P1 q1 calls1 data1 w1 h1 c1 C1 V1 F1 Gn1) in R1. apply (C46_decodes_iff P2 q2 calls2 data2 w2 h2 c2 C2 V2 F2 Gn2) in R2.
  exact (move_with _ int_near m s1 s2 _ _ _ _ _ _ _ _ _ _ (input_ok _ _ _ _ _ s1 V1) (input_ok _ _ _ _ _ s2 V2) Q R1 R2).
Qed.
Theorem C72_blocks_image : forall m P1 P2 q1 calls1 q2 calls2 im1 pl1 im2 pl2,
  let s1 := settings_of q1 calls1 in let s2 := settings_of q2 calls2 in
  Forall call_wf calls1 -> valid_buffer P1 im1 pl1 -> (s_optimize s1 = true -> countable s1 (im_color im1) (im_width im1) (im_height im1)) ->
  tables_generated s1 (im_color im1) (im_width im1) (im_height im1) (run_encode_image P1 q1 calls1 im1) ->
  Forall call_wf calls2 -> valid_buffer P2 im2 pl2 -> (s_optimize s2 = true -> countable s2 (im_color im2) (im_width im2) (im_height im2)) ->
  tables_generated s2 (im_color im2) (im_width im2) (im_height im2) (run_encode_image P2 q2 calls2 im2) ->
  representable int_dct s1 (im_color im1) pl1 (im_width im1) (im_height im1) ->
  representable int_dct s2 (im_color im2) pl2 (im_width im2) (im_height im2) ->
  blocks_move m (exec (run_encode_image P1 q1 calls1 im1)) (exec (run_encode_image P2 q2 calls2 im2)) pl1 pl2.
Proof.
  intros m P1 P2 q1 calls1 q2 calls2 im1 pl1 im2 pl2 s1 s2 C1 V1 F1 Gn1 C2 V2 F2 Gn2 R1 R2. pose proof (proj1 R1) as Q.
  apply (C46_decodes_iff_image P1 q1 calls1 im1 pl1 C1 V1 F1 Gn1) in R1. apply (C46_decodes_iff_image P2 q2 calls2 im2 pl2 C2 V2 F2 Gn2) in R2.
  exact (move_with _ int_near m s1 s2 _ _ _ _ _ _ _ _ _ _ (buffer_ok _ _ _ s1 V1) (buffer_ok _ _ _ s2 V2) Q R1 R2).
Qed.
Theorem C72_blocks_simd : forall m P1 P2 q1 calls1 q2 calls2 c1 c2 data1 w1 h1 data2 w2 h2,
  let s1 := settings_of q1 calls1 in let s2 := settings_of q2 calls2 in
  valid_call P1 q1 calls1 data1 w1 h1 c1 -> generated_simd P1 q1 calls1 data1 w1 h1 c1 -> valid_call P2 q2 calls2 data2 w2 h2 c2 -> generated_simd P2 q2 calls2 data2 w2 h2 c2 ->
  representable avx2_dct s1 (spec_color c1) (spec_plane c1 data1 w1) w1 h1 ->
  representable avx2_dct s2 (spec_color c2) (spec_plane c2 data2 w2) w2 h2 ->
  blocks_move m (exec (run_encode_avx2 P1 q1 calls1 data1 w1 h1 c1)) (exec (run_encode_avx2 P2 q2 calls2 data2 w2 h2 c2))
              (spec_plane c1 data1 w1) (spec_plane c2 data2 w2).
Proof.
  intros m P1 P2 q1 calls1 q2 calls2 c1 c2 data1 w1 h1 data2 w2 h2 s1 s2 [C1 V1 F1] Gn1 [C2 V2 F2] Gn2 R1 R2. pose proof (proj1 R1) as Q.
  apply (C46_decodes_iff_simd P1 q1 calls1 data1 w1 h1 c1 C1 V1 F1 Gn1) in R1. apply (C46_decodes_iff_simd P2 q2 calls2 data2 w2 h2 c2 C2 V2 F2 Gn2) in R2.
  exact (move_with _ avx2_near m s1 s2 _ _ _ _ _ _ _ _ _ _ (input_ok _ _ _ _ _ s1 V1) (input_ok _ _ _ _ _ s2 V2) Q R1 R2).
Qed.

(** Whole images: the file of a rotated or mirrored picture is, up to one quantization step, the file of the picture with
    its blocks and coefficients moved. *)
Definition image_moves (m : motion) (run1 run2 : list Z * outcome unit) (w1 h1 w2 h2 : Z) : Prop :=
  exists b1 b2 j1 j2, run1 = (b1, Ok tt) /\ decode b1 = Some j1 /\ run2 = (b2, Ok tt) /\ decode b2 = Some j2 /\ moved_file m j1 j2 w1 h1 w2 h2.
Lemma image_with T (HT : near_exact T) m s1 s2 c data1 w1 h1 data2 w2 h2 run1 run2 :
  planes_ok s1 (spec_color c) w1 h1 (spec_plane c data1 w1) -> planes_ok s2 (spec_color c) w2 h2 (spec_plane c data2 w2) -> quantizers_fit s1 (spec_color c) ->
  full_resolution (frame_for s1 (spec_color c) w1 h1) -> full_resolution (frame_for s2 (spec_color c) w2 h2) ->
  moved_image m c data1 w1 h1 data2 w2 h2 -> whole_blocks m w1 h1 -> moved_quantizers m s1 s2 ->
  gives T s1 (spec_color c) w1 h1 (spec_plane c data1 w1) run1 -> gives T s2 (spec_color c) w2 h2 (spec_plane c data2 w2) run2 ->
  image_moves m run1 run2 w1 h1 w2 h2.
Proof.
  intros O1 O2 Q F1 F2 MI WB MQ (b1 & j1 & E1 & D1 & A1) (b2 & j2 & E2 & D2 & A2). exists b1, b2, j1, j2.
  split; [exact E1|]. split; [exact D1|]. split; [exact E2|]. split; [exact D2|].
  exact (moved_image_core T HT m s1 s2 c data1 w1 h1 data2 w2 h2 j1 j2 A1 A2 O1 O2 Q F1 F2 MI WB MQ).
Qed.
Theorem C72_moved : forall m P1 P2 q1 calls1 q2 calls2 c data1 w1 h1 data2 w2 h2,
  let s1 := settings_of q1 calls1 in let s2 := settings_of q2 calls2 in
  valid_call P1 q1 calls1 data1 w1 h1 c -> generated P1 q1 calls1 data1 w1 h1 c -> valid_call P2 q2 calls2 data2 w2 h2 c -> generated P2 q2 calls2 data2 w2 h2 c ->
  representable int_dct s1 (spec_color c) (spec_plane c data1 w1) w1 h1 -> representable int_dct s2 (spec_color c) (spec_plane c data2 w2) w2 h2 ->
  full_resolution (frame_for s1 (spec_color c) w1 h1) -> full_resolution (frame_for s2 (spec_color c) w2 h2) ->
  moved_image m c data1 w1 h1 data2 w2 h2 -> whole_blocks m w1 h1 -> moved_quantizers m s1 s2 ->
  image_moves m (exec (run_encode P1 q1 calls1 data1 w1 h1 c)) (exec (run_encode P2 q2 calls2 data2 w2 h2 c)) w1 h1 w2 h2.
Proof.
  intros m P1 P2 q1 calls1 q2 calls2 c data1 w1 h1 data2 w2 h2 s1 s2 [C1 V1 F1] Gn1 [C2 V2 F2] Gn2 R1 R2 U1 U2 MI WB MQ. pose proof (proj1 R1) as Q.
  apply (C46_decodes_iff P1 q1 calls1 data1 w1 h1 c C1 V1 F1 Gn1) in R1. apply (C46_decodes_iff P2 q2 calls2 data2 w2 h2 c C2 V2 F2 Gn2) in R2.
  exact (image_with _ int_near m s1 s2 c data1 w1 h1 data2 w2 h2 _ _ (input_ok _ _ _ _ _ s1 V1) (input_ok _ _ _ _ _ s2 V2) Q U1 U2 MI WB MQ R1 R2).
Qed.
Theorem C72_moved_simd : forall m P1 P2 q1 calls1 q2 calls2 c data1 w1 h1 data2 w2 h2,
  let s1 := settings_of q1 calls1 in let s2 := settings_of q2 calls2 in
  valid_call P1 q1 calls1 data1 w1 h1 c -> generated_simd P1 q1 calls1 data1 w1 h1 c -> valid_call P2 q2 calls2 data2 w2 h2 c -> generated_simd P2 q2 calls2 data2 w2 h2 c ->
  representable avx2_dct s1 (spec_color c) (spec_plane c data1 w1) w1 h1 -> representable avx2_dct s2 (spec_color c) (spec_plane c data2 w2) w2 h2 ->
  full_resolution (frame_for s1 (spec_color c) w1 h1) -> full_resolution (frame_for s2 (spec_color c) w2 h2) ->
  moved_image m c data1 w1 h1 data2 w2 h2 -> whole_blocks m w1 h1 -> moved_quantizers m s1 s2 ->
  image_moves m (exec (run_encode_avx2 P1 q1 calls1 data1 w1 h1 c)) (exec (run_encode_avx2 P2 q2 calls2 data2 w2 h2 c)) w1 h1 w2 h2.
Proof.
  intros m P1 P2 q1 calls1 q2 calls2 c data1 w1 h1 data2 w2 h2 s1 s2 [C1 V1 F1] Gn1 [C2 V2 F2] Gn2 R1 R2 U1 U2 MI WB MQ. pose proof (proj1 R1) as Q.
  apply (C46_decodes_iff_simd P1 q1 calls1 data1 w1 h1 c C1 V1 F1 Gn1) in R1. apply (C46_decodes_iff_simd P2 q2 calls2 data2 w2 h2 c C2 V2 F2 Gn2) in R2.
  exact (image_with _ avx2_near m s1 s2 c data1 w1 h1 data2 w2 h2 _ _ (input_ok _ _ _ _ _ s1 V1) (input_ok _ _ _ _ _ s2 V2) Q U1 U2 MI WB MQ R1 R2).
Qed.

(** ** Concrete cases: a 9 x 16 RGB picture rotated by 90 degrees to the right, baseline and progressive; ... *)
Definition upright_bytes : list Z := concat (map (pixel_at 0) (upto 144)).
Definition rotated_bytes : list Z := concat (map (fun i => pixel_at 0 (9 * (15 - i mod 16) + i / 16)) (upto 144)).
Definition to_the_right : motion := {| transpose := true; upside_down := true; mirror := false |}.
Definition flat_cfg : list call := [CSampling F_1_1; CQuant QFlat QFlat].
Example C72_case :
  moved_image to_the_right Rgb upright_bytes 9 16 rotated_bytes 16 9 /\
  image_moves to_the_right (exec (run_encode debug64 60 flat_cfg upright_bytes 9 16 Rgb))
    (exec (run_encode release32 60 (flat_cfg ++ [CScans 4; CRestart 1]) rotated_bytes 16 9 Rgb)) 9 16 16 9.
Proof.
  assert (G : moved_image to_the_right Rgb upright_bytes 9 16 rotated_bytes 16 9).
  { split; [split; reflexivity|]. intros y x y' x' i Hy Hx Hi E. unfold moved in E. cbn [transpose upside_down mirror to_the_right fst snd] in E.
    assert (y' = 16 - 1 - x /\ x' = y) as [-> ->] by (split; congruence). cbn [spec_bpp] in *.
    pose proof (zall (fun n => forallb (fun i => pixel_byte rotated_bytes 16 3 (n / 16) (n mod 16) i =? pixel_byte upright_bytes 9 3 (15 - n mod 16) (n / 16) i) [0; 1; 2]) 0 144
      ltac:(vm_compute; reflexivity) (16 * y + x) ltac:(lia)) as K. cbv beta in K.
    replace ((16 * y + x) / 16) with y in K by (rewrite Z.mul_comm, Z.add_comm, Z.div_add, Z.div_small by lia; lia).
    replace ((16 * y + x) mod 16) with x in K by (rewrite Z.mul_comm, Z.add_comm, Z.mod_add, Z.mod_small by lia; lia).
    rewrite forallb_forall in K. apply Z.eqb_eq, K. assert (i = 0 \/ i = 1 \/ i = 2) as [->|[->| ->]] by lia; cbn; auto. }
  split; [exact G|]. apply C72_moved.
  - constructor; [repeat constructor| |discriminate]. constructor; try (vm_compute; split; discriminate); [now right| |vm_compute; discriminate].
    apply bytes_by_check. vm_compute. reflexivity.
  - discriminate.
  - constructor; [repeat (constructor; [cbn; unfold is_u16; try exact I; try lia|]); constructor| |discriminate]. constructor; try (vm_compute; split; discriminate); [now left| |vm_compute; discriminate].
    apply bytes_by_check. vm_compute. reflexivity.
  - discriminate.
  - apply colour_fits; try reflexivity; vm_compute; reflexivity.
  - apply colour_fits; try reflexivity; try (vm_compute; reflexivity). vm_compute. discriminate.
  - intros co H. cbn in H. repeat (destruct H as [<-|H]; [split; reflexivity|]). destruct H.
  - intros co H. cbn in H. repeat (destruct H as [<-|H]; [split; reflexivity|]). destruct H.
  - exact G.
  - split; [reflexivity|discriminate].
  - intros dest v u Hv Hu.
    assert (K : forall d, forallb (fun v => forallb (fun u =>
      quantizer (settings_of 60 (flat_cfg ++ [CScans 4; CRestart 1])) d (Z.of_nat (8 * v + u)) =? quantizer (settings_of 60 flat_cfg) d (Z.of_nat (8 * u + v))) (seq 0 8)) (seq 0 8) = true).
    { intros d. unfold quantizer. destruct (d =? 0); vm_compute; reflexivity. }
    specialize (K dest). rewrite forallb_forall in K. specialize (K v ltac:(apply in_seq; lia)). rewrite forallb_forall in K. specialize (K u ltac:(apply in_seq; lia)).
    cbn [moved_frequency to_the_right transpose fst snd]. lia.
Qed.
(** ... and a picture of horizontal stripes. *)
Definition stripe_bytes : list Z := flat_map (fun y => repeat ((37 * y) mod 256) 11) (upto 10).
Example C72_case_stripes :
  nth_error (fr_comps (frame_for (settings_of 75 []) (spec_color Luma) 11 10)) 0 = Some {| co_id := 0; co_h := 1; co_v := 1; co_tq := 0 |} /\
  (forall by_ bx, 0 <= by_ < 2 -> 0 <= bx < 2 ->
     has_pattern Even_rows (sample_at (spec_plane Luma stripe_bytes 11) (frame_for (settings_of 75 []) (spec_color Luma) 11 10) 0 {| co_id := 0; co_h := 1; co_v := 1; co_tq := 0 |} by_ bx)) /\
  patterns_kept (exec (run_encode debug64 75 [] stripe_bytes 11 10 Luma)) (spec_plane Luma stripe_bytes 11).
Proof.
  split; [reflexivity|]. split.
  - intros by_ bx Hy Hx.
    pose proof (zall (fun b => forallb (fun y => forallb (fun x =>
      let s := sample_at (spec_plane Luma stripe_bytes 11) (frame_for (settings_of 75 []) (spec_color Luma) 11 10) 0 {| co_id := 0; co_h := 1; co_v := 1; co_tq := 0 |} (b / 2) (b mod 2) in
      s y x =? s y 0%nat) (seq 0 8)) (seq 0 8)) 0 4 ltac:(vm_compute; reflexivity) (2 * by_ + bx) ltac:(lia)) as K. cbv beta zeta in K.
    replace ((2 * by_ + bx) / 2) with by_ in K by lia. replace ((2 * by_ + bx) mod 2) with bx in K by lia.
    intros y x Ly Lx. rewrite forallb_forall in K. specialize (K y ltac:(apply in_seq; lia)). rewrite forallb_forall in K. specialize (K x ltac:(apply in_seq; lia)). apply Z.eqb_eq, K.
  - apply C72_patterns.
    + constructor; [repeat constructor| |discriminate]. constructor; try (vm_compute; split; discriminate); [now right| |vm_compute; discriminate].
      apply bytes_by_check. vm_compute. reflexivity.
    + discriminate.
    + apply colour_fits; try reflexivity; vm_compute; reflexivity.
Qed.
