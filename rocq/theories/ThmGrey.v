(** C58: components are encoded alike, whatever the pixel format; grey images. *)
From Coq Require Import Reals Lra.
From Verif Require Import T81 SFile SEncode SHuff SAvx2 SSize SRestart SDecide SLocal SReal SPixels SGrey MAvx2 PReal PAvx2 PAvxDct PSmall PRest PDecide PCount PMax
  ThmRound ThmQuant ThmScan ThmHuff ThmBytes ThmRestart ThmDecide ThmAvx2 ThmAll ThmLocal.
From Coq Require Import ZArith List Bool Lia.
Import ListNotations.
Open Scope Z_scope.

Lemma zigzag_pos_in k : 0 <= k < 64 -> In (zigzag_pos k) zigzag.
Proof. intros Hk. unfold zigzag_pos. apply nth_In. assert (length zigzag = 64%nat) by (vm_compute; reflexivity). lia. Qed.

(** ** One component *)
Lemma component_core F T (HF : transform_is F T) s1 s2 color1 color2 w1 h1 w2 h2 pl1 pl2 j1 j2 :
  decoded_with T s1 color1 w1 h1 pl1 j1 -> decoded_with T s2 color2 w2 h2 pl2 j2 ->
  forall ci1 ci2 co1 co2, nth_error (fr_comps (j_frame j1)) ci1 = Some co1 -> nth_error (fr_comps (j_frame j2)) ci2 = Some co2 ->
  quant j1 ci1 = quant j2 ci2 ->
  forall by1 bx1 by2 bx2 k,
  0 <= by1 < blocks_high (j_frame j1) co1 -> 0 <= bx1 < blocks_wide (j_frame j1) co1 ->
  0 <= by2 < blocks_high (j_frame j2) co2 -> 0 <= bx2 < blocks_wide (j_frame j2) co2 -> 0 <= k < 64 ->
  same_samples pl1 pl2 (j_frame j1) (j_frame j2) ci1 ci2 co1 co2 by1 bx1 by2 bx2 ->
  exists v, coef j1 ci1 by1 bx1 k = Some v /\ coef j2 ci2 by2 bx2 k = Some v.
Proof.
  intros A1 A2 ci1 ci2 co1 co2 N1 N2 Hq by1 bx1 by2 bx2 k Y1 X1 Y2 X2 Hk HS.
  assert (M1 : nth_error (comps_of (s_sampling s1) color1) ci1 = Some co1) by (rewrite (da_frame _ _ _ _ _ _ _ A1) in N1; exact N1).
  assert (M2 : nth_error (comps_of (s_sampling s2) color2) ci2 = Some co2) by (rewrite (da_frame _ _ _ _ _ _ _ A2) in N2; exact N2).
  rewrite (da_quant _ _ _ _ _ _ _ A1 ci1 co1 M1), (da_quant _ _ _ _ _ _ _ A2 ci2 co2 M2) in Hq.
  pose proof (da_coef _ _ _ _ _ _ _ A1 ci1 co1 by1 bx1 k M1 Y1 X1 Hk) as E1.
  pose proof (da_coef _ _ _ _ _ _ _ A2 ci2 co2 by2 bx2 k M2 Y2 X2 Hk) as E2.
  rewrite E1, E2. eexists. split; [reflexivity|]. f_equal. clear E1 E2.
  rewrite (da_frame _ _ _ _ _ _ _ A1), (da_frame _ _ _ _ _ _ _ A2) in HS.
  unfold expected. pose proof (zigzag_pos_range k Hk) as Hz. pose proof (zigzag_pos_in k Hk) as Hin. destruct (zigzag_pos k) as [v u].
  f_equal.
  - f_equal. assert (Hq' : map (fun '(v, u) => quantizer s1 (co_tq co1) (Z.of_nat (8 * v + u))) zigzag = map (fun '(v, u) => quantizer s2 (co_tq co2) (Z.of_nat (8 * v + u))) zigzag) by congruence.
    symmetry. clear - Hq' Hin. induction zigzag as [|[v' u'] l IH]; [destruct Hin|]. cbn [map] in Hq'.
    assert (K : quantizer s1 (co_tq co1) (Z.of_nat (8 * v' + u')) = quantizer s2 (co_tq co2) (Z.of_nat (8 * v' + u'))) by congruence.
    assert (L : map (fun '(v, u) => quantizer s1 (co_tq co1) (Z.of_nat (8 * v + u))) l = map (fun '(v, u) => quantizer s2 (co_tq co2) (Z.of_nat (8 * v + u))) l) by congruence.
    destruct Hin as [Hin|Hin]; [|exact (IH Hin L)]. assert (v' = v /\ u' = u) as [-> ->] by (split; congruence). exact K.
  - symmetry. apply (transform_ext F T _ _ v u HF); [apply Hz|apply Hz|]. intros y x Hy Hx. unfold block_sample. f_equal. exact (HS y x Hy Hx).
Qed.

(** ** Grey *)
Lemma grey_range grey w y x : Forall is_u8 grey -> 0 <= pixel_byte grey w 1 y x 0 <= 255.
Proof.
  intros H. unfold pixel_byte. destruct (nth_in_or_default (Z.to_nat ((y * w + x) * 1 + 0)) grey 0) as [I|E]; [|rewrite E; lia].
  rewrite Forall_forall in H. specialize (H _ I). unfold is_u8 in H. lia.
Qed.
Lemma spec_ycc_grey v ci : 0 <= v <= 255 -> spec_ycc ci v v v = match ci with O => v | _ => 128 end.
Proof. intros H. destruct ci as [|[|ci]]; cbn [spec_ycc]; unfold spec_y, spec_cb, spec_cr; lia. Qed.
Lemma grey_plane c p data w y x v : grey_pixel c p v -> (forall k, p k = pixel_byte data w (spec_bpp c) y x k) -> 0 <= v <= 255 ->
  spec_plane c data w 0 y x = v /\ (c <> Luma -> forall ci, (1 <= ci <= 2)%nat -> spec_plane c data w ci y x = 128).
Proof.
  intros G Hp Hv. unfold spec_plane. split.
  - destruct c; cbn [grey_pixel] in G; rewrite <- ?Hp; cbn [Nat.ltb Nat.leb Z.of_nat];
      try (destruct G as (-> & -> & ->); now rewrite spec_ycc_grey); try (exact (proj1 G)); try exact G; destruct G.
  - intros NL ci Hci. destruct c; cbn [grey_pixel] in G; rewrite <- ?Hp; try contradiction;
      destruct ci as [|[|[|ci]]]; try lia; cbn [Nat.ltb Nat.leb];
      try (destruct G as (-> & -> & ->); now rewrite spec_ycc_grey); try apply G.
Qed.
(** Component 0 of such a file has full resolution and table 0; the greyscale file has this component only. *)
Lemma first_comp s c w h : c <> Cmyk -> exists co, nth_error (fr_comps (frame_for s (spec_color c) w h)) 0 = Some co /\ co_tq co = 0 /\
  hmax (frame_for s (spec_color c) w h) / co_h co = 1 /\ vmax (frame_for s (spec_color c) w h) / co_v co = 1 /\
  blocks_high (frame_for s (spec_color c) w h) co = cdiv h 8 /\ blocks_wide (frame_for s (spec_color c) w h) co = cdiv w 8.
Proof.
  intros NC.
  assert (D : forall a b, 1 <= b -> cdiv (a * b) b = a).
  { intros a b Hb. unfold cdiv. replace (a * b + b - 1) with (b - 1 + a * b) by ring. rewrite Z.div_add, Z.div_small by lia. lia. }
  assert (B : forall n, 1 <= n -> Z.max n (Z.max 1 (Z.max 1 1)) = n /\ Z.max n (Z.max 1 (Z.max 1 (Z.max n 1))) = n) by lia.
  unfold blocks_high, blocks_wide, comp_height, comp_width, hmax, vmax. cbn [frame_for fr_comps fr_width fr_height]. unfold comps_of.
  destruct (factors (s_sampling s)) as [fh fv] eqn:E.
  assert (1 <= fh /\ 1 <= fv) as [Ph Pv] by (destruct (s_sampling s); cbn in E; inversion E; lia).
  destruct (B fh Ph) as [B1 B2]. destruct (B fv Pv) as [B3 B4].
  destruct c; try contradiction; cbn [spec_color nth_error]; eexists; (split; [reflexivity|]); cbn [co_tq co_h co_v fold_right];
    rewrite ?B1, ?B2, ?B3, ?B4; (split; [reflexivity|]);
    try (rewrite !(Z.div_same _) by lia; rewrite !D by lia; now repeat split);
    change (Z.max 1 1) with 1; rewrite !D by lia; now repeat split.
Qed.
Lemma zero_transform F T (HF : transform_is F T) (H0 : forall i, 0 <= i < 64 -> zn (F (repeat 0 64)) i = 0) s v u :
  (v < 8)%nat -> (u < 8)%nat -> (forall y x, (y < 8)%nat -> (x < 8)%nat -> s y x = 0) -> T s v u = 0.
Proof.
  intros Hv Hu E. rewrite (transform_ext F T s (fun _ _ => 0) v u HF Hv Hu E). rewrite <- (HF (fun _ _ => 0) v u Hv Hu).
  replace (block_of (fun _ _ => 0)) with (repeat 0 64) by (vm_compute; reflexivity). apply H0. lia.
Qed.

Lemma nonneg8 a n p : 0 <= a -> 0 <= p -> 0 <= (8 * a + Z.of_nat n) * p.
Proof. intros. apply Z.mul_nonneg_nonneg; lia. Qed.
Lemma grey_core F T (HF : transform_is F T) (H0 : forall i, 0 <= i < 64 -> zn (F (repeat 0 64)) i = 0) s sg c data grey w h j jg :
  Forall is_u8 grey -> 1 <= w -> 1 <= h -> s_quality s = s_quality sg -> s_luma s = s_luma sg -> grey_image c data grey w h ->
  decoded_with T s (spec_color c) w h (spec_plane c data w) j -> decoded_with T sg JLuma w h (spec_plane Luma grey w) jg ->
  same_grey j jg w h.
Proof.
  intros U Hw Hh Q1 Q2 G A Ag.
  assert (NC : c <> Cmyk) by (intros ->; exact (G 0 0 (conj (Z.le_refl 0) (Z.lt_le_trans 0 1 h eq_refl Hh)) (conj (Z.le_refl 0) (Z.lt_le_trans 0 1 w eq_refl Hw)))).
  destruct (first_comp s c w h NC) as (co & N & Tq & Sx & Sy & BH & BW).
  destruct (first_comp sg Luma w h ltac:(discriminate)) as (cg & Ng & Tqg & Sxg & Syg & BHg & BWg). cbn [spec_color] in *.
  pose proof (da_frame _ _ _ _ _ _ _ A) as J. pose proof (da_frame _ _ _ _ _ _ _ Ag) as Jg.
  assert (EQ : quant j 0 = quant jg 0).
  { rewrite (da_quant _ _ _ _ _ _ _ A 0%nat co N), (da_quant _ _ _ _ _ _ _ Ag 0%nat cg Ng). rewrite Tq, Tqg. f_equal. apply map_ext. intros [v u].
    unfold quantizer. cbn [Z.eqb]. now rewrite Q1, Q2. }
  assert (GP : forall y x, let y' := Z.min (h - 1) y in let x' := Z.min (w - 1) x in 0 <= y -> 0 <= x ->
            spec_plane c data w 0 y' x' = spec_plane Luma grey w 0 y' x' /\ (c <> Luma -> forall ci, (1 <= ci <= 2)%nat -> spec_plane c data w ci y' x' = 128)).
  { intros y x y' x' Hy Hx. 
    assert (Ry : 0 <= y' < h) by (unfold y'; clear - Hy Hh; lia). assert (Rx : 0 <= x' < w) by (unfold x'; clear - Hx Hw; lia).
    clearbody y' x'. specialize (G y' x' Ry Rx).
    exact (grey_plane c _ data w y' x' _ G (fun k => eq_refl) (grey_range grey w y' x' U)). }
  split; [exact EQ|]. split.
  - intros by_ bx k Hy Hx Hk.
    apply (component_core F T HF _ _ _ _ _ _ _ _ _ _ j jg A Ag 0%nat 0%nat co cg); rewrite ?J, ?Jg; try assumption; try (rewrite ?BH, ?BW, ?BHg, ?BWg; assumption).
    intros y x Ly Lx. unfold sample_at. rewrite Sx, Sy, Sxg, Syg. cbn [frame_for fr_height fr_width].
    apply GP; apply nonneg8; [apply Hy|discriminate|apply Hx|discriminate].
  - intros ci co' by_ bx k Hci N' Hy Hx Hk. assert (NL : c <> Luma).
    { intros ->. rewrite J in N'. cbn [frame_for fr_comps spec_color] in N'. unfold comps_of in N'. destruct (factors (s_sampling s)). destruct ci as [|[|ci]]; [lia|discriminate N'|destruct ci; discriminate N']. }
    rewrite J in N'. rewrite (da_coef _ _ _ _ _ _ _ A ci co' by_ bx k N' Hy Hx Hk). f_equal. unfold expected.
    pose proof (zigzag_pos_range k Hk) as Hz. destruct (zigzag_pos k) as [v u]. destruct Hz as [Hv Hu].
    rewrite (zero_transform F T HF H0 _ v u Hv Hu); [reflexivity|].
    intros y x Ly Lx. unfold block_sample.
    destruct (steps_exact s (spec_color c) w h co' (nth_error_In _ _ N')) as (_ & _ & Px & Py & _). unfold step_x, step_y in Px, Py.
    assert (128 - 128 = 0) as Z0 by reflexivity. rewrite <- Z0. f_equal. apply GP; [| |exact NL|exact Hci]; apply nonneg8; [apply Hy|apply Z.lt_le_incl, Py|apply Hx|apply Z.lt_le_incl, Px].
Qed.

(** What is shown. *)
Lemma exact_idct_zero S y x : (forall v u, (v < 8)%nat -> (u < 8)%nat -> S v u = 0%R) -> exact_idct S y x = 0%R.
Proof. intros H. unfold exact_idct, rsum8. rewrite !H by lia. ring. Qed.
Lemma zz_index_range v u : (v < 8)%nat -> (u < 8)%nat -> (zigzag_index v u < 64)%nat.
Proof.
  intros Hv Hu. assert (E : forallb (fun v => forallb (fun u => (zigzag_index v u <? 64)%nat) (seq 0 8)) (seq 0 8) = true) by (vm_compute; reflexivity).
  rewrite forallb_forall in E. specialize (E v ltac:(apply in_seq; lia)). rewrite forallb_forall in E. specialize (E u ltac:(apply in_seq; lia)). apply Nat.ltb_lt in E. exact E.
Qed.
Lemma grey_shown j jg w h : same_grey j jg w h -> shows_grey j jg w h.
Proof.
  intros (EQ & HL & HC). split.
  - intros by_ bx y x Hy Hx Ly Lx. unfold reconstructed. f_equal. unfold exact_idct. f_equal. apply rsum8_ext. intros u Lu. apply rsum8_ext. intros v Lv.
    f_equal. f_equal. f_equal. unfold dequantized. rewrite EQ. destruct (HL by_ bx (Z.of_nat (zigzag_index v u)) Hy Hx ltac:(pose proof (zz_index_range v u Lv Lu); lia)) as (a & -> & ->). reflexivity.
  - intros ci co by_ bx y x Hci N Hy Hx Ly Lx. unfold reconstructed. rewrite exact_idct_zero; [ring|]. intros v u Lv Lu. unfold dequantized.
    rewrite (HC ci co by_ bx (Z.of_nat (zigzag_index v u)) Hci N Hy Hx ltac:(pose proof (zz_index_range v u Lv Lu); lia)). destruct (quant j ci); [|reflexivity].
    rewrite Z.mul_0_l. reflexivity.
Qed.

(** ** C58
    Two successful calls, of any pixel formats, settings and dimensions: components with equal quantization tables have equal
    coefficients in blocks where their samples are equal.  (What is in the other components, which component it is, and
    how the samples came about does not matter.) *)
Definition components_alike (run1 run2 : list Z * outcome unit) (pl1 pl2 : planes) : Prop :=
  exists b1 b2 j1 j2, run1 = (b1, Ok tt) /\ decode b1 = Some j1 /\ run2 = (b2, Ok tt) /\ decode b2 = Some j2 /\
    forall ci1 ci2 co1 co2, nth_error (fr_comps (j_frame j1)) ci1 = Some co1 -> nth_error (fr_comps (j_frame j2)) ci2 = Some co2 ->
    quant j1 ci1 = quant j2 ci2 ->
    forall by1 bx1 by2 bx2 k,
    0 <= by1 < blocks_high (j_frame j1) co1 -> 0 <= bx1 < blocks_wide (j_frame j1) co1 ->
    0 <= by2 < blocks_high (j_frame j2) co2 -> 0 <= bx2 < blocks_wide (j_frame j2) co2 -> 0 <= k < 64 ->
    same_samples pl1 pl2 (j_frame j1) (j_frame j2) ci1 ci2 co1 co2 by1 bx1 by2 bx2 ->
    exists v, coef j1 ci1 by1 bx1 k = Some v /\ coef j2 ci2 by2 bx2 k = Some v.

Lemma alike_core F T (HF : transform_is F T) s1 s2 color1 color2 w1 h1 w2 h2 pl1 pl2 run1 run2 :
  gives T s1 color1 w1 h1 pl1 run1 -> gives T s2 color2 w2 h2 pl2 run2 -> components_alike run1 run2 pl1 pl2.
Proof.
  intros (b1 & j1 & E1 & D1 & A1) (b2 & j2 & E2 & D2 & A2). exists b1, b2, j1, j2.
  split; [exact E1|]. split; [exact D1|]. split; [exact E2|]. split; [exact D2|]. exact (component_core F T HF _ _ _ _ _ _ _ _ _ _ _ _ A1 A2).
Qed.
Theorem C58_components : forall P1 P2 q1 calls1 q2 calls2 c1 c2 data1 w1 h1 data2 w2 h2,
  let s1 := settings_of q1 calls1 in let s2 := settings_of q2 calls2 in
  valid_call P1 q1 calls1 data1 w1 h1 c1 -> generated P1 q1 calls1 data1 w1 h1 c1 -> valid_call P2 q2 calls2 data2 w2 h2 c2 -> generated P2 q2 calls2 data2 w2 h2 c2 ->
  representable int_dct s1 (spec_color c1) (spec_plane c1 data1 w1) w1 h1 ->
  representable int_dct s2 (spec_color c2) (spec_plane c2 data2 w2) w2 h2 ->
  components_alike (exec (run_encode P1 q1 calls1 data1 w1 h1 c1)) (exec (run_encode P2 q2 calls2 data2 w2 h2 c2))
                   (spec_plane c1 data1 w1) (spec_plane c2 data2 w2).
Proof.
  intros P1 P2 q1 calls1 q2 calls2 c1 c2 data1 w1 h1 data2 w2 h2 s1 s2 [C1 V1 F1] Gn1 [C2 V2 F2] Gn2 R1 R2.
  apply (C46_decodes_iff P1 q1 calls1 data1 w1 h1 c1 C1 V1 F1 Gn1) in R1. apply (C46_decodes_iff P2 q2 calls2 data2 w2 h2 c2 C2 V2 F2 Gn2) in R2.
  exact (alike_core _ _ fdct_is_int_dct _ _ _ _ _ _ _ _ _ _ _ _ R1 R2).
Qed.
Theorem C58_components_simd : forall P1 P2 q1 calls1 q2 calls2 c1 c2 data1 w1 h1 data2 w2 h2,
  let s1 := settings_of q1 calls1 in let s2 := settings_of q2 calls2 in
  valid_call P1 q1 calls1 data1 w1 h1 c1 -> generated_simd P1 q1 calls1 data1 w1 h1 c1 -> valid_call P2 q2 calls2 data2 w2 h2 c2 -> generated_simd P2 q2 calls2 data2 w2 h2 c2 ->
  representable avx2_dct s1 (spec_color c1) (spec_plane c1 data1 w1) w1 h1 ->
  representable avx2_dct s2 (spec_color c2) (spec_plane c2 data2 w2) w2 h2 ->
  components_alike (exec (run_encode_avx2 P1 q1 calls1 data1 w1 h1 c1)) (exec (run_encode_avx2 P2 q2 calls2 data2 w2 h2 c2))
                   (spec_plane c1 data1 w1) (spec_plane c2 data2 w2).
Proof.
  intros P1 P2 q1 calls1 q2 calls2 c1 c2 data1 w1 h1 data2 w2 h2 s1 s2 [C1 V1 F1] Gn1 [C2 V2 F2] Gn2 R1 R2.
  apply (C46_decodes_iff_simd P1 q1 calls1 data1 w1 h1 c1 C1 V1 F1 Gn1) in R1. apply (C46_decodes_iff_simd P2 q2 calls2 data2 w2 h2 c2 C2 V2 F2 Gn2) in R2.
  exact (alike_core _ _ avx2_is_dct _ _ _ _ _ _ _ _ _ _ _ _ R1 R2).
Qed.
(** The same for the planes of an ImageBuffer and the bytes of a slice. *)
Theorem C58_components_image : forall P1 P2 q1 calls1 q2 calls2 im pl c data w h,
  let s1 := settings_of q1 calls1 in let s2 := settings_of q2 calls2 in
  Forall call_wf calls1 -> valid_buffer P1 im pl -> (s_optimize s1 = true -> countable s1 (im_color im) (im_width im) (im_height im)) ->
  tables_generated s1 (im_color im) (im_width im) (im_height im) (run_encode_image P1 q1 calls1 im) ->
  valid_call P2 q2 calls2 data w h c -> generated P2 q2 calls2 data w h c ->
  representable int_dct s1 (im_color im) pl (im_width im) (im_height im) ->
  representable int_dct s2 (spec_color c) (spec_plane c data w) w h ->
  components_alike (exec (run_encode_image P1 q1 calls1 im)) (exec (run_encode P2 q2 calls2 data w h c)) pl (spec_plane c data w).
Proof.
  intros P1 P2 q1 calls1 q2 calls2 im pl c data w h s1 s2 C1 V1 F1 Gn1 [C2 V2 F2] Gn2 R1 R2.
  apply (C46_decodes_iff_image P1 q1 calls1 im pl C1 V1 F1 Gn1) in R1. apply (C46_decodes_iff P2 q2 calls2 data w h c C2 V2 F2 Gn2) in R2.
  exact (alike_core _ _ fdct_is_int_dct _ _ _ _ _ _ _ _ _ _ _ _ R1 R2).
Qed.

(** A grey image in a colour format: the luminance of the greyscale file, coefficient by coefficient, and no colour.
    Quality and luminance table are the same; sampling factors, scans, restart interval, tables, platform: any. *)
Definition grey_alike (run rung : list Z * outcome unit) (w h : Z) : Prop :=
  exists b bg j jg, run = (b, Ok tt) /\ decode b = Some j /\ rung = (bg, Ok tt) /\ decode bg = Some jg /\ same_grey j jg w h.
Lemma grey_with F T (HF : transform_is F T) (H0 : forall i, 0 <= i < 64 -> zn (F (repeat 0 64)) i = 0) s sg c data grey w h run rung :
  Forall is_u8 grey -> 1 <= w -> 1 <= h -> s_quality s = s_quality sg -> s_luma s = s_luma sg -> grey_image c data grey w h ->
  gives T s (spec_color c) w h (spec_plane c data w) run -> gives T sg JLuma w h (spec_plane Luma grey w) rung ->
  grey_alike run rung w h.
Proof.
  intros U Hw Hh Q1 Q2 G (b & j & E & D & A) (bg & jg & Eg & Dg & Ag). exists b, bg, j, jg.
  split; [exact E|]. split; [exact D|]. split; [exact Eg|]. split; [exact Dg|]. exact (grey_core F T HF H0 s sg c data grey w h j jg U Hw Hh Q1 Q2 G A Ag).
Qed.
Lemma scalar_zero : forall i, 0 <= i < 64 -> zn (fdct_pure (repeat 0 64)) i = 0.
Proof. intros i Hi. pose proof (zall (fun i => zn (fdct_pure (repeat 0 64)) i =? 0) 0 64 ltac:(vm_compute; reflexivity) i ltac:(lia)) as E. cbv beta in E. apply Z.eqb_eq. exact E. Qed.
Lemma simd_zero : forall i, 0 <= i < 64 -> zn (avx2_pure (repeat 0 64)) i = 0.
Proof. intros i Hi. pose proof (zall (fun i => zn (avx2_pure (repeat 0 64)) i =? 0) 0 64 ltac:(vm_compute; reflexivity) i ltac:(lia)) as E. cbv beta in E. apply Z.eqb_eq. exact E. Qed.

Theorem C58_grey : forall P1 P2 q1 calls1 q2 calls2 c data grey w h,
  let s1 := settings_of q1 calls1 in let s2 := settings_of q2 calls2 in
  valid_call P1 q1 calls1 data w h c -> generated P1 q1 calls1 data w h c -> valid_call P2 q2 calls2 grey w h Luma -> generated P2 q2 calls2 grey w h Luma ->
  representable int_dct s1 (spec_color c) (spec_plane c data w) w h -> representable int_dct s2 JLuma (spec_plane Luma grey w) w h ->
  s_quality s1 = s_quality s2 -> s_luma s1 = s_luma s2 -> grey_image c data grey w h ->
  grey_alike (exec (run_encode P1 q1 calls1 data w h c)) (exec (run_encode P2 q2 calls2 grey w h Luma)) w h.
Proof.
  intros P1 P2 q1 calls1 q2 calls2 c data grey w h s1 s2 [C1 V1 F1] Gn1 [C2 V2 F2] Gn2 R1 R2 Q1 Q2 G.
  apply (C46_decodes_iff P1 q1 calls1 data w h c C1 V1 F1 Gn1) in R1. apply (C46_decodes_iff P2 q2 calls2 grey w h Luma C2 V2 F2 Gn2) in R2.
  exact (grey_with _ _ fdct_is_int_dct scalar_zero _ _ _ _ _ _ _ _ _ (vi_bytes _ _ _ _ _ V2) (proj1 (vi_width _ _ _ _ _ V1)) (proj1 (vi_height _ _ _ _ _ V1)) Q1 Q2 G R1 R2).
Qed.
Theorem C58_grey_simd : forall P1 P2 q1 calls1 q2 calls2 c data grey w h,
  let s1 := settings_of q1 calls1 in let s2 := settings_of q2 calls2 in
  valid_call P1 q1 calls1 data w h c -> generated_simd P1 q1 calls1 data w h c -> valid_call P2 q2 calls2 grey w h Luma -> generated_simd P2 q2 calls2 grey w h Luma ->
  representable avx2_dct s1 (spec_color c) (spec_plane c data w) w h -> representable avx2_dct s2 JLuma (spec_plane Luma grey w) w h ->
  s_quality s1 = s_quality s2 -> s_luma s1 = s_luma s2 -> grey_image c data grey w h ->
  grey_alike (exec (run_encode_avx2 P1 q1 calls1 data w h c)) (exec (run_encode_avx2 P2 q2 calls2 grey w h Luma)) w h.
Proof.
  intros P1 P2 q1 calls1 q2 calls2 c data grey w h s1 s2 [C1 V1 F1] Gn1 [C2 V2 F2] Gn2 R1 R2 Q1 Q2 G.
  apply (C46_decodes_iff_simd P1 q1 calls1 data w h c C1 V1 F1 Gn1) in R1. apply (C46_decodes_iff_simd P2 q2 calls2 grey w h Luma C2 V2 F2 Gn2) in R2.
  exact (grey_with _ _ avx2_is_dct simd_zero _ _ _ _ _ _ _ _ _ (vi_bytes _ _ _ _ _ V2) (proj1 (vi_width _ _ _ _ _ V1)) (proj1 (vi_height _ _ _ _ _ V1)) Q1 Q2 G R1 R2).
Qed.
(** What a decoder with exact arithmetic shows for such files: the same brightness, and chroma 128; that makes red, green
    and blue equal to the brightness. *)
Theorem C58_shown : forall j jg w h, same_grey j jg w h ->
  shows_grey j jg w h /\ forall k y, inverse k y 128 128 = y.
Proof.
  intros j jg w h H. split; [exact (grey_shown j jg w h H)|]. intros k y.
  destruct k as [|[|k]]; cbn [inverse]; unfold inverse_g, inverse_r, inverse_b; field.
Qed.

(** ** A concrete case: 9 x 17 grey pixels as RGBA with 2 x 2 subsampling, and as a progressive greyscale file *)
Definition grey_at (i : Z) : Z := (i * i * 7 + 3 * i) mod 256.
Definition grey_bytes : list Z := map grey_at (upto 153).
Definition rgba_bytes : list Z := concat (map (fun i => [grey_at i; grey_at i; grey_at i; (i * 31) mod 256]) (upto 153)).
Lemma colour_fits s c pl w h : forallb (fun i => (quantizer s 0 i <=? 255) && (quantizer s 1 i <=? 255) && negb (quantizer s 1 i mod 256 =? 0)) (upto 64) = true ->
  scans_fit s -> s_optimize s = false -> representable int_dct s c pl w h.
Proof.
  intros H Hs Ho. pose proof (below64 (fun i => (quantizer s 0 i <=? 255) && (quantizer s 1 i <=? 255) && negb (quantizer s 1 i mod 256 =? 0)) H) as B. cbv beta in B.
  split; [split|split].
  - intros co i Hc Hi. specialize (B i Hi). assert (T : co_tq co = 0 \/ co_tq co = 1).
    { unfold comps_of in Hc. destruct (factors (s_sampling s)), c; repeat (destruct Hc as [<-|Hc]; [cbn; auto|]); destruct Hc. }
    destruct T as [-> | ->]; lia.
  - intros i Hi. specialize (B i Hi). lia.
  - exact Hs.
  - rewrite Ho. discriminate.
Qed.
Example C58_case :
  grey_image Rgba rgba_bytes grey_bytes 9 17 /\
  grey_alike (exec (run_encode debug64 60 [CSampling F_2_2] rgba_bytes 9 17 Rgba))
             (exec (run_encode release32 60 [CScans 4; CRestart 1] grey_bytes 9 17 Luma)) 9 17.
Proof.
  assert (G : grey_image Rgba rgba_bytes grey_bytes 9 17).
  { intros y x Hy Hx.
    pose proof (zall (fun i => (pixel_byte rgba_bytes 9 4 (i / 9) (i mod 9) 0 =? pixel_byte grey_bytes 9 1 (i / 9) (i mod 9) 0) &&
      (pixel_byte rgba_bytes 9 4 (i / 9) (i mod 9) 1 =? pixel_byte grey_bytes 9 1 (i / 9) (i mod 9) 0) &&
      (pixel_byte rgba_bytes 9 4 (i / 9) (i mod 9) 2 =? pixel_byte grey_bytes 9 1 (i / 9) (i mod 9) 0)) 0 153
      ltac:(vm_compute; reflexivity) (9 * y + x) ltac:(lia)) as E. cbv beta in E.
    replace ((9 * y + x) / 9) with y in E by (rewrite Z.mul_comm, Z.add_comm, Z.div_add, Z.div_small by lia; lia).
    replace ((9 * y + x) mod 9) with x in E by (rewrite Z.mul_comm, Z.add_comm, Z.mod_add, Z.mod_small by lia; lia).
    cbn [grey_pixel spec_bpp]. lia. }
  split; [exact G|]. apply C58_grey with (c := Rgba).
  - constructor; [repeat constructor| |discriminate]. constructor; try (vm_compute; split; discriminate); [now right| |vm_compute; discriminate].
    apply bytes_by_check. vm_compute. reflexivity.
  - discriminate.
  - constructor; [repeat (constructor; [cbn; unfold is_u16; lia|]); constructor| |discriminate]. constructor; try (vm_compute; split; discriminate); [now left| |vm_compute; discriminate].
    apply bytes_by_check. vm_compute. reflexivity.
  - discriminate.
  - apply colour_fits; try reflexivity; vm_compute; reflexivity.
  - apply colour_fits; try reflexivity; try (vm_compute; reflexivity). vm_compute. discriminate.
  - reflexivity.
  - reflexivity.
  - exact G.
Qed.
