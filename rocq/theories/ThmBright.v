(** C63: adding a constant to the samples of a block changes its DC coefficient only; the brightness of an image. *)
From Coq Require Import Reals Lra.
From Verif Require Import T81 SFile SEncode SHuff SAvx2 SSize SRestart SDecide SLocal SReal SGrey SBright MAvx2 PAvx2 PAvxDct PSmall PRest PDecide PCount PMax PPlat
  ThmRound ThmQuant ThmScan ThmHuff ThmBytes ThmRestart ThmDecide ThmAvx2 ThmAll ThmLocal ThmReal ThmGrey ThmDecoder.
From Coq Require Import ZArith List Bool Lia ZifyBool ZifyNat.
Import ListNotations.
Open Scope Z_scope.

(** ** The transforms *)
Definition shift_ok (T : transform) : Prop :=
  (forall s d v u, (v < 8)%nat -> (u < 8)%nat -> (8 * v + u <> 0)%nat -> T (fun y x => s y x + d) v u = T s v u) /\
  (forall s d, T (fun y x => s y x + d) 0%nat 0%nat = T s 0%nat 0%nat + 64 * d) /\
  (forall s, (forall y x, (y < 8)%nat -> (x < 8)%nat -> -128 <= s y x <= 127) -> -8192 <= T s 0%nat 0%nat <= 8192).

Lemma round_shift_add x n k : 0 <= n -> round_shift (x + 2 ^ n * k) n = round_shift x n + k.
Proof. intros Hn. unfold round_shift. replace (x + 2 ^ n * k + 2 ^ (n - 1)) with (x + 2 ^ (n - 1) + k * 2 ^ n) by ring. rewrite Z.div_add; [reflexivity|]. pose proof (Z.pow_pos_nonneg 2 n). lia. Qed.
Lemma sum_shift v (r : nat -> Z) e : (v < 8)%nat ->
  sum8 (fun y => dct_entry v y * (r y + e)) = sum8 (fun y => dct_entry v y * r y) + (if (v =? 0)%nat then 65536 * e else 0).
Proof.
  intros Hv. unfold sum8. do 8 (destruct v as [|v]; [unfold dct_entry, dct_matrix; cbn [nth Nat.eqb]; ring|]). lia.
Qed.
Lemma row_shift s d y u : (u < 8)%nat -> row_dct (fun y x => s y x + d) y u = row_dct s y u + (if (u =? 0)%nat then 32 * d else 0).
Proof.
  intros Hu. unfold row_dct. rewrite (sum_shift u (s y) d Hu). destruct (u =? 0)%nat; [|rewrite !Z.add_0_r; reflexivity].
  replace (65536 * d) with (2 ^ 11 * (32 * d)) by ring. apply round_shift_add. lia.
Qed.
Lemma sum8_ext f g : (forall y, f y = g y) -> sum8 f = sum8 g.
Proof. intros E. unfold sum8. rewrite !E. reflexivity. Qed.
Lemma column_shift s d v u : (v < 8)%nat -> (u < 8)%nat ->
  sum8 (fun y => dct_entry v y * row_dct (fun y x => s y x + d) y u)
  = sum8 (fun y => dct_entry v y * row_dct s y u) + (if (8 * v + u =? 0)%nat then 2 ^ 15 * (64 * d) else 0).
Proof.
  intros Hv Hu. rewrite (sum8_ext _ (fun y => dct_entry v y * (row_dct s y u + (if (u =? 0)%nat then 32 * d else 0)))) by (intros y; rewrite row_shift by assumption; reflexivity).
  rewrite (sum_shift v (fun y => row_dct s y u) _ Hv). f_equal.
  destruct (v =? 0)%nat eqn:Ev, (u =? 0)%nat eqn:Eu; replace (8 * v + u =? 0)%nat with ((v =? 0)%nat && (u =? 0)%nat) by lia; rewrite Ev, Eu; cbn [andb]; ring.
Qed.
Lemma int_dct_mean s : int_dct s 0 0 = sum8 (fun y => sum8 (fun x => s y x)).
Proof.
  assert (R : forall y, row_dct s y 0 = 4 * sum8 (fun x => s y x)).
  { intros y. unfold row_dct, round_shift, sum8. unfold dct_entry, dct_matrix. cbn [nth].
    set (t := s y 0%nat + _ + _ + _ + _ + _ + _ + _). replace (8192 * s y 0%nat + _ + _ + _ + _ + _ + _ + _) with (4 * t * 2048) by (unfold t; ring).
    change (2 ^ (11 - 1)) with 1024. change (2 ^ 11) with 2048.
    rewrite Z.div_add_l by lia. change (1024 / 2048) with 0. apply Z.add_0_r. }
  unfold int_dct, round_shift. unfold sum8 at 1. rewrite !R. unfold dct_entry, dct_matrix. cbn [nth].
  set (g := fun y => sum8 (fun x => s y x)). unfold sum8 at 9. 
  match goal with |- (?A + _) / _ = ?B => replace A with (B * 32768) by (unfold g; ring); generalize B end.
  intros B. change (2 ^ (15 - 1)) with 16384. change (2 ^ 15) with 32768. rewrite Z.div_add_l by lia. change (16384 / 32768) with 0. apply Z.add_0_r.
Qed.
Lemma mean_range s : (forall y x, (y < 8)%nat -> (x < 8)%nat -> -128 <= s y x <= 127) -> -8192 <= int_dct s 0 0 <= 8192.
Proof.
  intros H. rewrite int_dct_mean.
  assert (R : forall y, (y < 8)%nat -> -1024 <= sum8 (fun x => s y x) <= 1016).
  { intros y Hy. unfold sum8. pose proof (H y 0%nat Hy ltac:(lia)). pose proof (H y 1%nat Hy ltac:(lia)). pose proof (H y 2%nat Hy ltac:(lia)). pose proof (H y 3%nat Hy ltac:(lia)).
    pose proof (H y 4%nat Hy ltac:(lia)). pose proof (H y 5%nat Hy ltac:(lia)). pose proof (H y 6%nat Hy ltac:(lia)). pose proof (H y 7%nat Hy ltac:(lia)). clear H. lia. }
  clear H. set (g := fun y => sum8 (fun x => s y x)) in *. change (forall y, (y < 8)%nat -> -1024 <= g y <= 1016) in R. clearbody g. unfold sum8.
  pose proof (R 0%nat ltac:(lia)). pose proof (R 1%nat ltac:(lia)). pose proof (R 2%nat ltac:(lia)). pose proof (R 3%nat ltac:(lia)).
  pose proof (R 4%nat ltac:(lia)). pose proof (R 5%nat ltac:(lia)). pose proof (R 6%nat ltac:(lia)). pose proof (R 7%nat ltac:(lia)). lia.
Qed.
Lemma scalar_shift_ok : shift_ok int_dct.
Proof.
  split; [|split; [|exact mean_range]].
  - intros s d v u Hv Hu N. unfold int_dct. rewrite column_shift by assumption. rewrite (proj2 (Nat.eqb_neq _ _) N), Z.add_0_r. reflexivity.
  - intros s d. unfold int_dct. rewrite column_shift by lia. cbn [Nat.mul Nat.add Nat.eqb]. apply round_shift_add. lia.
Qed.
Lemma simd_shift_ok : shift_ok avx2_dct.
Proof.
  destruct scalar_shift_ok as (A & B & C). split; [|split].
  - intros s d v u Hv Hu N. unfold avx2_dct. rewrite (A s d v u Hv Hu N). rewrite column_shift by assumption. rewrite (proj2 (Nat.eqb_neq _ _) N), Z.add_0_r. reflexivity.
  - intros s d. exact (B s d).
  - intros s H. exact (C s H).
Qed.

(** ** The quantized mean *)
Lemma dc_step q a d : 1 <= q <= 255 -> -8192 <= a <= 8192 -> -8192 <= a + 64 * d <= 8192 ->
  let v1 := int_quantize (8 * q) a in let v2 := int_quantize (8 * q) (a + 64 * d) in
  (0 <= d -> v1 <= v2) /\ (d <= 0 -> v2 <= v1) /\ Z.abs (q * (v2 - v1) - 8 * d) <= 2 * q.
Proof.
  intros Hq Ha Hb v1 v2.
  split; [intros Hd; apply C15_monotone; lia|]. split; [intros Hd; apply C15_monotone; lia|].
  pose proof (C15_error (8 * q) a ltac:(lia)) as E1. pose proof (C15_error (8 * q) (a + 64 * d) ltac:(lia)) as E2. fold v1 in E1. fold v2 in E2. clearbody v1 v2.
  assert (H2 : 8 * q / 2 = 4 * q) by (replace (8 * q) with (4 * q * 2) by ring; apply Z.div_mul; lia). rewrite H2 in E1, E2. clear H2.
  assert (G : forall x, -8192 <= x <= 8192 -> (Z.abs x + 4 * q + 1) * (8 * q) <= 9300 * (8 * q)) by (intros x Hx; apply Z.mul_le_mono_nonneg_r; lia).
  pose proof (G a Ha) as G1. pose proof (G _ Hb) as G2. clear G.
  assert (K1 : 65536 * Z.abs (a - v1 * (8 * q)) <= 65536 + 336544 * q) by lia.
  assert (K2 : 65536 * Z.abs (a + 64 * d - v2 * (8 * q)) <= 65536 + 336544 * q) by lia. clear E1 E2 G1 G2.
  replace (q * (v2 - v1)) with (q * v2 - q * v1) by ring.
  replace (v1 * (8 * q)) with (8 * (q * v1)) in K1 by ring. replace (v2 * (8 * q)) with (8 * (q * v2)) in K2 by ring.
  generalize dependent (q * v1). generalize dependent (q * v2). intros. lia.
Qed.

(** ** One component *)
Definition planes_ok (s : settings) (color : jcolor) (w h : Z) (pl : planes) : Prop :=
  1 <= w /\ 1 <= h /\ forall i y x, (i < length (comps_of (s_sampling s) color))%nat -> 0 <= y < h -> 0 <= x < w -> 0 <= pl i y x <= 255.
Lemma shifted_core F T (HF : transform_is F T) (HT : shift_ok T) s1 s2 color1 color2 w1 h1 w2 h2 pl1 pl2 j1 j2 :
  decoded_with T s1 color1 w1 h1 pl1 j1 -> decoded_with T s2 color2 w2 h2 pl2 j2 ->
  planes_ok s1 color1 w1 h1 pl1 -> planes_ok s2 color2 w2 h2 pl2 -> quantizers_fit s1 color1 ->
  forall ci1 ci2 co1 co2, nth_error (fr_comps (j_frame j1)) ci1 = Some co1 -> nth_error (fr_comps (j_frame j2)) ci2 = Some co2 ->
  quant j1 ci1 = quant j2 ci2 ->
  forall by1 bx1 by2 bx2 d,
  0 <= by1 < blocks_high (j_frame j1) co1 -> 0 <= bx1 < blocks_wide (j_frame j1) co1 ->
  0 <= by2 < blocks_high (j_frame j2) co2 -> 0 <= bx2 < blocks_wide (j_frame j2) co2 ->
  shifted_samples pl1 pl2 (j_frame j1) (j_frame j2) ci1 ci2 co1 co2 by1 bx1 by2 bx2 d ->
  shifted_block j1 j2 ci1 ci2 by1 bx1 by2 bx2 d.
Proof.
  intros A1 A2 O1 O2 HQ ci1 ci2 co1 co2 N1 N2 Hq by1 bx1 by2 bx2 d Y1 X1 Y2 X2 HS.
  assert (M1 : nth_error (comps_of (s_sampling s1) color1) ci1 = Some co1) by (rewrite (da_frame _ _ _ _ _ _ _ A1) in N1; exact N1).
  assert (M2 : nth_error (comps_of (s_sampling s2) color2) ci2 = Some co2) by (rewrite (da_frame _ _ _ _ _ _ _ A2) in N2; exact N2).
  pose proof Hq as Hq0.
  rewrite (da_quant _ _ _ _ _ _ _ A1 ci1 co1 M1), (da_quant _ _ _ _ _ _ _ A2 ci2 co2 M2) in Hq.
  pose proof (fun k Hk => da_coef _ _ _ _ _ _ _ A1 ci1 co1 by1 bx1 k M1 Y1 X1 Hk) as E1.
  pose proof (fun k Hk => da_coef _ _ _ _ _ _ _ A2 ci2 co2 by2 bx2 k M2 Y2 X2 Hk) as E2.
  assert (HB : forall y x, (y < 8)%nat -> (x < 8)%nat ->
    block_sample pl2 w2 h2 (hmax (frame_for s2 color2 w2 h2) / co_h co2) (vmax (frame_for s2 color2 w2 h2) / co_v co2) ci2 by2 bx2 y x =
    block_sample pl1 w1 h1 (hmax (frame_for s1 color1 w1 h1) / co_h co1) (vmax (frame_for s1 color1 w1 h1) / co_v co1) ci1 by1 bx1 y x + d).
  { intros y x Hy Hx. specialize (HS y x Hy Hx). rewrite (da_frame _ _ _ _ _ _ _ A1), (da_frame _ _ _ _ _ _ _ A2) in HS. unfold sample_at in HS.
    change (fr_height (frame_for s1 color1 w1 h1)) with h1 in HS. change (fr_width (frame_for s1 color1 w1 h1)) with w1 in HS.
    change (fr_height (frame_for s2 color2 w2 h2)) with h2 in HS. change (fr_width (frame_for s2 color2 w2 h2)) with w2 in HS.
    unfold block_sample. rewrite HS. ring. }
  assert (QE : forall v u, In (v, u) zigzag -> quantizer s2 (co_tq co2) (Z.of_nat (8 * v + u)) = quantizer s1 (co_tq co1) (Z.of_nat (8 * v + u))).
  { assert (Hq' : map (fun '(v, u) => quantizer s1 (co_tq co1) (Z.of_nat (8 * v + u))) zigzag = map (fun '(v, u) => quantizer s2 (co_tq co2) (Z.of_nat (8 * v + u))) zigzag) by congruence.
    intros v u Hin. symmetry. clear - Hq' Hin. induction zigzag as [|[v' u'] l IH]; [destruct Hin|]. cbn [map] in Hq'.
    assert (K : quantizer s1 (co_tq co1) (Z.of_nat (8 * v' + u')) = quantizer s2 (co_tq co2) (Z.of_nat (8 * v' + u'))) by congruence.
    assert (L : map (fun '(v, u) => quantizer s1 (co_tq co1) (Z.of_nat (8 * v + u))) l = map (fun '(v, u) => quantizer s2 (co_tq co2) (Z.of_nat (8 * v + u))) l) by congruence.
    destruct Hin as [Hin|Hin]; [|exact (IH L Hin)]. assert (v' = v /\ u' = u) as [-> ->] by (split; congruence). exact K. }
  set (b1 := block_sample pl1 w1 h1 (hmax (frame_for s1 color1 w1 h1) / co_h co1) (vmax (frame_for s1 color1 w1 h1) / co_v co1) ci1 by1 bx1) in *.
  set (b2 := block_sample pl2 w2 h2 (hmax (frame_for s2 color2 w2 h2) / co_h co2) (vmax (frame_for s2 color2 w2 h2) / co_v co2) ci2 by2 bx2) in *.
  assert (TE : forall v u, (v < 8)%nat -> (u < 8)%nat -> T b2 v u = T (fun y x => b1 y x + d) v u) by (intros v u Hv Hu; exact (transform_ext F T _ _ v u HF Hv Hu HB)).
  destruct HT as (TA & TD & TR).
  split.
  - intros k Hk. rewrite (E1 k ltac:(lia)), (E2 k ltac:(lia)). eexists. split; [reflexivity|]. f_equal. unfold expected. fold b1 b2.
    pose proof (zigzag_pos_range k ltac:(lia)) as Hz. pose proof (zigzag_pos_in k ltac:(lia)) as Hin.
    assert (NZ : let '(v, u) := zigzag_pos k in (8 * v + u <> 0)%nat).
    { pose proof (zall (fun k => let '(v, u) := zigzag_pos k in negb (8 * v + u =? 0)%nat) 1 64 ltac:(vm_compute; reflexivity) k ltac:(lia)) as E. cbv beta in E.
      destruct (zigzag_pos k) as [v u]. destruct (Nat.eqb_spec (8 * v + u) 0); [discriminate E|assumption]. }
    destruct (zigzag_pos k) as [v u]. destruct Hz as [Hv Hu]. rewrite (QE v u Hin), (TE v u Hv Hu), (TA b1 d v u Hv Hu NZ). reflexivity.
  - pose proof (da_quant _ _ _ _ _ _ _ A1 ci1 co1 M1) as Q1.
    assert (Zz : exists l, zigzag = (0%nat, 0%nat) :: l) by (eexists; vm_compute; reflexivity). destruct Zz as [l Zl].
    assert (Z0 : zigzag_pos 0 = (0%nat, 0%nat)) by (vm_compute; reflexivity).
    rewrite Zl in Q1. cbn [map] in Q1. do 2 eexists. exists (expected T s1 color1 pl1 w1 h1 ci1 co1 by1 bx1 0), (expected T s2 color2 pl2 w2 h2 ci2 co2 by2 bx2 0).
    split; [exact Q1|]. split; [apply E1; lia|]. split; [apply E2; lia|].
    unfold expected. fold b1 b2. rewrite Z0. rewrite (QE 0%nat 0%nat) by (rewrite Zl; left; reflexivity). rewrite (TE 0%nat 0%nat), TD by lia.
    change (Z.of_nat (8 * 0 + 0)) with 0. apply dc_step.
    + pose proof (proj1 HQ co1 0 (nth_error_In _ _ M1) ltac:(lia)) as U. split; [|exact U]. unfold quantizer, quantizer_of, scaled. destruct (co_tq co1 =? 0); [destruct (s_luma s1)|destruct (s_chroma s1)]; lia.
    + apply TR. intros y x Hy Hx. destruct O1 as (W & H & P). pose proof (sample_range s1 color1 w1 h1 pl1 ci1 co1 by1 bx1 y x W H P M1 (proj1 Y1) (proj1 X1)) as R.
      unfold b1, block_sample. unfold sample_at in R. clear - R. change (fr_height (frame_for s1 color1 w1 h1)) with h1 in R. change (fr_width (frame_for s1 color1 w1 h1)) with w1 in R. lia.
    + rewrite <- TD, <- (TE 0%nat 0%nat) by lia. apply TR. intros y x Hy Hx. destruct O2 as (W & H & P). pose proof (sample_range s2 color2 w2 h2 pl2 ci2 co2 by2 bx2 y x W H P M2 (proj1 Y2) (proj1 X2)) as R.
      unfold b2, block_sample. unfold sample_at in R. change (fr_height (frame_for s2 color2 w2 h2)) with h2 in R. change (fr_width (frame_for s2 color2 w2 h2)) with w2 in R. clear - R. lia.
Qed.

(** ** Images *)
Lemma div_shift a d : (a + 65536 * d) / 65536 = a / 65536 + d.
Proof. rewrite (Z.mul_comm 65536 d). apply Z.div_add. discriminate. Qed.
Lemma spec_y_shift r g b d : spec_y (r + d) (g + d) (b + d) = spec_y r g b + d.
Proof. unfold spec_y. rewrite <- div_shift. f_equal. ring. Qed.
Lemma spec_cb_shift r g b d : spec_cb (r + d) (g + d) (b + d) = spec_cb r g b.
Proof. unfold spec_cb. f_equal. ring. Qed.
Lemma spec_cr_shift r g b d : spec_cr (r + d) (g + d) (b + d) = spec_cr r g b.
Proof. unfold spec_cr. f_equal. ring. Qed.
Lemma ycc_shift ci r g b d : spec_ycc ci (r + d) (g + d) (b + d) = spec_ycc ci r g b + (if (ci =? 0)%nat then d else 0).
Proof. destruct ci as [|[|ci]]; cbn [spec_ycc Nat.eqb]; rewrite ?spec_y_shift, ?spec_cb_shift, ?spec_cr_shift, ?Z.add_0_r; reflexivity. Qed.
Lemma bright_plane c data data' w y x d ci : brighter_pixel c (pixel_byte data w (spec_bpp c) y x) (pixel_byte data' w (spec_bpp c) y x) d ->
  (ci < match spec_color c with JLuma => 1 | JYcbcr => 3 | _ => 4 end)%nat ->
  spec_plane c data' w ci y x = spec_plane c data w ci y x + (if (ci =? 0)%nat then d else 0).
Proof.
  unfold spec_plane. generalize (pixel_byte data w (spec_bpp c) y x) (pixel_byte data' w (spec_bpp c) y x). intros p p' B L.
  destruct c; cbn [brighter_pixel spec_color] in B, L; try contradiction.
  - destruct ci as [|ci]; [exact B|lia].
  - destruct B as (-> & -> & ->). apply ycc_shift.
  - destruct B as (-> & -> & ->). apply ycc_shift.
  - destruct B as (-> & -> & ->). apply ycc_shift.
  - destruct B as (-> & -> & ->). apply ycc_shift.
  - destruct ci as [|[|[|ci]]]; [apply B| | |lia]; cbn [Nat.eqb Z.of_nat Pos.of_succ_nat Pos.succ]; rewrite Z.add_0_r; apply B.
  - destruct B as (-> & -> & -> & ->). destruct (ci <? 3)%nat eqn:E; [apply ycc_shift|]. destruct (Nat.eqb_spec ci 0) as [->|]; [discriminate E|]. rewrite Z.add_0_r. reflexivity.
  - destruct ci as [|[|[|[|ci]]]]; [apply B| | | |lia]; cbn [Nat.eqb Z.of_nat Pos.of_succ_nat Pos.succ]; rewrite Z.add_0_r; apply B.
Qed.
Lemma bright_core F T (HF : transform_is F T) (HT : shift_ok T) s1 s2 c data1 data2 w h d j1 j2 :
  decoded_with T s1 (spec_color c) w h (spec_plane c data1 w) j1 -> decoded_with T s2 (spec_color c) w h (spec_plane c data2 w) j2 ->
  planes_ok s1 (spec_color c) w h (spec_plane c data1 w) -> planes_ok s2 (spec_color c) w h (spec_plane c data2 w) -> quantizers_fit s1 (spec_color c) ->
  same_coding s1 s2 -> brighter_image c data1 data2 w h d -> brighter_file j1 j2 w h d.
Proof.
  intros A1 A2 O1 O2 Q S B. pose proof (da_frame _ _ _ _ _ _ _ A1) as J1. pose proof (da_frame _ _ _ _ _ _ _ A2) as J2.
  destruct O1 as (Hw & Hh & P1). destruct O2 as (_ & _ & P2). destruct S as (S1 & S2 & S3 & S4).
  assert (NC : c <> Cmyk) by (intros ->; exact (B 0 0 (conj (Z.le_refl 0) (Z.lt_le_trans 0 1 h eq_refl Hh)) (conj (Z.le_refl 0) (Z.lt_le_trans 0 1 w eq_refl Hw)))).
  assert (CE : comps_of (s_sampling s2) (spec_color c) = comps_of (s_sampling s1) (spec_color c)) by (rewrite S2; reflexivity).
  assert (HM : hmax (frame_for s2 (spec_color c) w h) = hmax (frame_for s1 (spec_color c) w h)) by (unfold hmax, frame_for; cbn [fr_comps]; rewrite CE; reflexivity).
  assert (VM : vmax (frame_for s2 (spec_color c) w h) = vmax (frame_for s1 (spec_color c) w h)) by (unfold vmax, frame_for; cbn [fr_comps]; rewrite CE; reflexivity).
  assert (BH : forall co, blocks_high (frame_for s2 (spec_color c) w h) co = blocks_high (frame_for s1 (spec_color c) w h) co) by (intros co; unfold blocks_high, comp_height; rewrite VM; reflexivity).
  assert (BW : forall co, blocks_wide (frame_for s2 (spec_color c) w h) co = blocks_wide (frame_for s1 (spec_color c) w h) co) by (intros co; unfold blocks_wide, comp_width; rewrite HM; reflexivity).
  assert (QE : forall ci co, nth_error (comps_of (s_sampling s1) (spec_color c)) ci = Some co -> quant j1 ci = quant j2 ci).
  { intros ci co N. rewrite (da_quant _ _ _ _ _ _ _ A1 ci co N). rewrite (da_quant _ _ _ _ _ _ _ A2 ci co ltac:(rewrite CE; exact N)). f_equal. apply map_ext. intros [v u].
    unfold quantizer. rewrite S1, S3, S4. reflexivity. }
  assert (SS : forall ci co by_ bx, nth_error (comps_of (s_sampling s1) (spec_color c)) ci = Some co -> 0 <= by_ -> 0 <= bx ->
    shifted_samples (spec_plane c data1 w) (spec_plane c data2 w) (j_frame j1) (j_frame j2) ci ci co co by_ bx by_ bx (if (ci =? 0)%nat then d else 0)).
  { intros ci co by_ bx N Hy Hx y x Ly Lx. rewrite J1, J2. unfold sample_at. rewrite HM, VM.
    change (fr_height (frame_for s1 (spec_color c) w h)) with h. change (fr_width (frame_for s1 (spec_color c) w h)) with w.
    change (fr_height (frame_for s2 (spec_color c) w h)) with h. change (fr_width (frame_for s2 (spec_color c) w h)) with w.
    destruct (steps_exact s1 (spec_color c) w h co (nth_error_In _ _ N)) as (_ & _ & Px & Py & _). unfold step_x, step_y in Px, Py.
    pose proof (nonneg8 by_ y _ Hy (Z.lt_le_incl _ _ Py)) as R1. pose proof (nonneg8 bx x _ Hx (Z.lt_le_incl _ _ Px)) as R2.
    generalize dependent ((8 * by_ + Z.of_nat y) * (vmax (frame_for s1 (spec_color c) w h) / co_v co)). intros Yc R1.
    generalize dependent ((8 * bx + Z.of_nat x) * (hmax (frame_for s1 (spec_color c) w h) / co_h co)). intros Xc R2.
    apply bright_plane; [apply B; clear - R1 R2 Hw Hh; lia|].
    assert (L : (ci < length (comps_of (s_sampling s1) (spec_color c)))%nat) by (apply nth_error_Some; congruence).
    unfold comps_of in L. destruct (factors (s_sampling s1)). destruct (spec_color c); exact L. }
  split.
  - intros by_ bx Hy Hx. destruct (first_comp s1 c w h NC) as (co & N & _ & _ & _ & H1 & H2).
    apply (shifted_core F T HF HT s1 s2 (spec_color c) (spec_color c) w h w h _ _ j1 j2 A1 A2 (conj Hw (conj Hh P1)) (conj Hw (conj Hh P2)) Q 0%nat 0%nat co co);
      try (rewrite ?J1, ?J2, ?BH, ?BW, ?H1, ?H2; assumption).
    + rewrite J2. unfold frame_for. cbn [fr_comps]. rewrite CE. exact N.
    + exact (QE 0%nat co N).
    + exact (SS 0%nat co by_ bx N (proj1 Hy) (proj1 Hx)).
  - intros ci co by_ bx k Hci N Hy Hx Hk. rewrite J1 in N. cbn [frame_for fr_comps] in N.
    assert (N2 : nth_error (fr_comps (j_frame j2)) ci = Some co) by (rewrite J2; unfold frame_for; cbn [fr_comps]; rewrite CE; exact N).
    apply (component_core F T HF s1 s2 (spec_color c) (spec_color c) w h w h (spec_plane c data1 w) (spec_plane c data2 w) j1 j2 A1 A2 ci ci co co); try assumption.
    + rewrite J1. exact N.
    + exact (QE ci co N).
    + rewrite J2, BH, <- J1. exact Hy.
    + rewrite J2, BW, <- J1. exact Hx.
    + intros y x Ly Lx. rewrite (SS ci co by_ bx N (proj1 Hy) (proj1 Hx) y x Ly Lx). destruct ci as [|ci]; [lia|]. cbn [Nat.eqb]. rewrite Z.add_0_r. reflexivity.
Qed.

(** ** C63
    Two successful calls, of any pixel formats, settings and dimensions: if the samples of a block of one file are those
    of a block of the other plus a constant (and the quantization tables of the two components are equal), the AC
    coefficients of the blocks are equal, and the DC coefficients differ by the constant. *)
Definition blocks_shift (run1 run2 : list Z * outcome unit) (pl1 pl2 : planes) : Prop :=
  exists b1 b2 j1 j2, run1 = (b1, Ok tt) /\ decode b1 = Some j1 /\ run2 = (b2, Ok tt) /\ decode b2 = Some j2 /\
    forall ci1 ci2 co1 co2, nth_error (fr_comps (j_frame j1)) ci1 = Some co1 -> nth_error (fr_comps (j_frame j2)) ci2 = Some co2 ->
    quant j1 ci1 = quant j2 ci2 ->
    forall by1 bx1 by2 bx2 d,
    0 <= by1 < blocks_high (j_frame j1) co1 -> 0 <= bx1 < blocks_wide (j_frame j1) co1 ->
    0 <= by2 < blocks_high (j_frame j2) co2 -> 0 <= bx2 < blocks_wide (j_frame j2) co2 ->
    shifted_samples pl1 pl2 (j_frame j1) (j_frame j2) ci1 ci2 co1 co2 by1 bx1 by2 bx2 d ->
    shifted_block j1 j2 ci1 ci2 by1 bx1 by2 bx2 d.
Lemma shift_core F T (HF : transform_is F T) (HT : shift_ok T) s1 s2 color1 color2 w1 h1 w2 h2 pl1 pl2 run1 run2 :
  planes_ok s1 color1 w1 h1 pl1 -> planes_ok s2 color2 w2 h2 pl2 -> quantizers_fit s1 color1 ->
  gives T s1 color1 w1 h1 pl1 run1 -> gives T s2 color2 w2 h2 pl2 run2 -> blocks_shift run1 run2 pl1 pl2.
Proof.
  intros O1 O2 Q (b1 & j1 & E1 & D1 & A1) (b2 & j2 & E2 & D2 & A2). exists b1, b2, j1, j2.
  split; [exact E1|]. split; [exact D1|]. split; [exact E2|]. split; [exact D2|].
  exact (shifted_core F T HF HT _ _ _ _ _ _ _ _ _ _ _ _ A1 A2 O1 O2 Q).
Qed.
Lemma input_ok P data w h c s : valid_input P data w h c -> planes_ok s (spec_color c) w h (spec_plane c data w).
Proof. intros V. split; [apply V|]. split; [apply V|exact (input_planes _ _ _ _ _ _ V)]. Qed.
Lemma buffer_ok P im pl s : valid_buffer P im pl -> planes_ok s (im_color im) (im_width im) (im_height im) pl.
Proof. intros V. pose proof (vb_image _ _ _ V) as O. split; [apply O|]. split; [apply O|exact (image_planes _ _ s O)]. Qed.

Theorem C63_blocks : forall P1 P2 q1 calls1 q2 calls2 c1 c2 data1 w1 h1 data2 w2 h2,
  let s1 := settings_of q1 calls1 in let s2 := settings_of q2 calls2 in
  valid_call P1 q1 calls1 data1 w1 h1 c1 -> generated P1 q1 calls1 data1 w1 h1 c1 -> valid_call P2 q2 calls2 data2 w2 h2 c2 -> generated P2 q2 calls2 data2 w2 h2 c2 ->
  representable int_dct s1 (spec_color c1) (spec_plane c1 data1 w1) w1 h1 ->
  representable int_dct s2 (spec_color c2) (spec_plane c2 data2 w2) w2 h2 ->
  blocks_shift (exec (run_encode P1 q1 calls1 data1 w1 h1 c1)) (exec (run_encode P2 q2 calls2 data2 w2 h2 c2))
               (spec_plane c1 data1 w1) (spec_plane c2 data2 w2).
Proof.
  intros P1 P2 q1 calls1 q2 calls2 c1 c2 data1 w1 h1 data2 w2 h2 s1 s2 [C1 V1 F1] Gn1 [C2 V2 F2] Gn2 R1 R2. pose proof (proj1 R1) as Q.
  apply (C46_decodes_iff P1 q1 calls1 data1 w1 h1 c1 C1 V1 F1 Gn1) in R1. apply (C46_decodes_iff P2 q2 calls2 data2 w2 h2 c2 C2 V2 F2 Gn2) in R2.
  exact (shift_core _ _ fdct_is_int_dct scalar_shift_ok s1 s2 _ _ _ _ _ _ _ _ _ _ (input_ok _ _ _ _ _ s1 V1) (input_ok _ _ _ _ _ s2 V2) Q R1 R2).
Qed.
Theorem C63_blocks_simd : forall P1 P2 q1 calls1 q2 calls2 c1 c2 data1 w1 h1 data2 w2 h2,
  let s1 := settings_of q1 calls1 in let s2 := settings_of q2 calls2 in
  valid_call P1 q1 calls1 data1 w1 h1 c1 -> generated_simd P1 q1 calls1 data1 w1 h1 c1 -> valid_call P2 q2 calls2 data2 w2 h2 c2 -> generated_simd P2 q2 calls2 data2 w2 h2 c2 ->
  representable avx2_dct s1 (spec_color c1) (spec_plane c1 data1 w1) w1 h1 ->
  representable avx2_dct s2 (spec_color c2) (spec_plane c2 data2 w2) w2 h2 ->
  blocks_shift (exec (run_encode_avx2 P1 q1 calls1 data1 w1 h1 c1)) (exec (run_encode_avx2 P2 q2 calls2 data2 w2 h2 c2))
               (spec_plane c1 data1 w1) (spec_plane c2 data2 w2).
Proof.
  intros P1 P2 q1 calls1 q2 calls2 c1 c2 data1 w1 h1 data2 w2 h2 s1 s2 [C1 V1 F1] Gn1 [C2 V2 F2] Gn2 R1 R2. pose proof (proj1 R1) as Q.
  apply (C46_decodes_iff_simd P1 q1 calls1 data1 w1 h1 c1 C1 V1 F1 Gn1) in R1. apply (C46_decodes_iff_simd P2 q2 calls2 data2 w2 h2 c2 C2 V2 F2 Gn2) in R2.
  exact (shift_core _ _ avx2_is_dct simd_shift_ok s1 s2 _ _ _ _ _ _ _ _ _ _ (input_ok _ _ _ _ _ s1 V1) (input_ok _ _ _ _ _ s2 V2) Q R1 R2).
Qed.
(** [encode_image], both. *)
Theorem C63_blocks_image : forall P1 P2 q1 calls1 q2 calls2 im1 pl1 im2 pl2,
  let s1 := settings_of q1 calls1 in let s2 := settings_of q2 calls2 in
  Forall call_wf calls1 -> valid_buffer P1 im1 pl1 -> (s_optimize s1 = true -> countable s1 (im_color im1) (im_width im1) (im_height im1)) ->
  tables_generated s1 (im_color im1) (im_width im1) (im_height im1) (run_encode_image P1 q1 calls1 im1) ->
  Forall call_wf calls2 -> valid_buffer P2 im2 pl2 -> (s_optimize s2 = true -> countable s2 (im_color im2) (im_width im2) (im_height im2)) ->
  tables_generated s2 (im_color im2) (im_width im2) (im_height im2) (run_encode_image P2 q2 calls2 im2) ->
  representable int_dct s1 (im_color im1) pl1 (im_width im1) (im_height im1) ->
  representable int_dct s2 (im_color im2) pl2 (im_width im2) (im_height im2) ->
  blocks_shift (exec (run_encode_image P1 q1 calls1 im1)) (exec (run_encode_image P2 q2 calls2 im2)) pl1 pl2.
Proof.
  intros P1 P2 q1 calls1 q2 calls2 im1 pl1 im2 pl2 s1 s2 C1 V1 F1 Gn1 C2 V2 F2 Gn2 R1 R2. pose proof (proj1 R1) as Q.
  apply (C46_decodes_iff_image P1 q1 calls1 im1 pl1 C1 V1 F1 Gn1) in R1. apply (C46_decodes_iff_image P2 q2 calls2 im2 pl2 C2 V2 F2 Gn2) in R2.
  exact (shift_core _ _ fdct_is_int_dct scalar_shift_ok s1 s2 _ _ _ _ _ _ _ _ _ _ (buffer_ok _ _ _ s1 V1) (buffer_ok _ _ _ s2 V2) Q R1 R2).
Qed.

(** Whole images: every pixel brighter by the same constant. *)
Definition brightness_only (run1 run2 : list Z * outcome unit) (w h d : Z) : Prop :=
  exists b1 b2 j1 j2, run1 = (b1, Ok tt) /\ decode b1 = Some j1 /\ run2 = (b2, Ok tt) /\ decode b2 = Some j2 /\ brighter_file j1 j2 w h d.
Lemma bright_with F T (HF : transform_is F T) (HT : shift_ok T) s1 s2 c data1 data2 w h d run1 run2 :
  planes_ok s1 (spec_color c) w h (spec_plane c data1 w) -> planes_ok s2 (spec_color c) w h (spec_plane c data2 w) -> quantizers_fit s1 (spec_color c) ->
  same_coding s1 s2 -> brighter_image c data1 data2 w h d ->
  gives T s1 (spec_color c) w h (spec_plane c data1 w) run1 -> gives T s2 (spec_color c) w h (spec_plane c data2 w) run2 -> brightness_only run1 run2 w h d.
Proof.
  intros O1 O2 Q S B (b1 & j1 & E1 & D1 & A1) (b2 & j2 & E2 & D2 & A2). exists b1, b2, j1, j2.
  split; [exact E1|]. split; [exact D1|]. split; [exact E2|]. split; [exact D2|].
  exact (bright_core F T HF HT s1 s2 c data1 data2 w h d j1 j2 A1 A2 O1 O2 Q S B).
Qed.
Theorem C63_brightness : forall P1 P2 q1 calls1 q2 calls2 c data1 data2 w h d,
  let s1 := settings_of q1 calls1 in let s2 := settings_of q2 calls2 in
  valid_call P1 q1 calls1 data1 w h c -> generated P1 q1 calls1 data1 w h c -> valid_call P2 q2 calls2 data2 w h c -> generated P2 q2 calls2 data2 w h c ->
  representable int_dct s1 (spec_color c) (spec_plane c data1 w) w h -> representable int_dct s2 (spec_color c) (spec_plane c data2 w) w h ->
  same_coding s1 s2 -> brighter_image c data1 data2 w h d ->
  brightness_only (exec (run_encode P1 q1 calls1 data1 w h c)) (exec (run_encode P2 q2 calls2 data2 w h c)) w h d.
Proof.
  intros P1 P2 q1 calls1 q2 calls2 c data1 data2 w h d s1 s2 [C1 V1 F1] Gn1 [C2 V2 F2] Gn2 R1 R2 S B. pose proof (proj1 R1) as Q.
  apply (C46_decodes_iff P1 q1 calls1 data1 w h c C1 V1 F1 Gn1) in R1. apply (C46_decodes_iff P2 q2 calls2 data2 w h c C2 V2 F2 Gn2) in R2.
  exact (bright_with _ _ fdct_is_int_dct scalar_shift_ok s1 s2 c data1 data2 w h d _ _ (input_ok _ _ _ _ _ s1 V1) (input_ok _ _ _ _ _ s2 V2) Q S B R1 R2).
Qed.
Theorem C63_brightness_simd : forall P1 P2 q1 calls1 q2 calls2 c data1 data2 w h d,
  let s1 := settings_of q1 calls1 in let s2 := settings_of q2 calls2 in
  valid_call P1 q1 calls1 data1 w h c -> generated_simd P1 q1 calls1 data1 w h c -> valid_call P2 q2 calls2 data2 w h c -> generated_simd P2 q2 calls2 data2 w h c ->
  representable avx2_dct s1 (spec_color c) (spec_plane c data1 w) w h -> representable avx2_dct s2 (spec_color c) (spec_plane c data2 w) w h ->
  same_coding s1 s2 -> brighter_image c data1 data2 w h d ->
  brightness_only (exec (run_encode_avx2 P1 q1 calls1 data1 w h c)) (exec (run_encode_avx2 P2 q2 calls2 data2 w h c)) w h d.
Proof.
  intros P1 P2 q1 calls1 q2 calls2 c data1 data2 w h d s1 s2 [C1 V1 F1] Gn1 [C2 V2 F2] Gn2 R1 R2 S B. pose proof (proj1 R1) as Q.
  apply (C46_decodes_iff_simd P1 q1 calls1 data1 w h c C1 V1 F1 Gn1) in R1. apply (C46_decodes_iff_simd P2 q2 calls2 data2 w h c C2 V2 F2 Gn2) in R2.
  exact (bright_with _ _ avx2_is_dct simd_shift_ok s1 s2 c data1 data2 w h d _ _ (input_ok _ _ _ _ _ s1 V1) (input_ok _ _ _ _ _ s2 V2) Q S B R1 R2).
Qed.

(** ** A concrete case: 9 x 17 RGB pixels, darker by 37; 2 x 2 subsampling and quality 60, baseline and progressive *)
Definition pixel_at (k i : Z) : list Z := [(i * 31 + 7) mod 219 + 37 - k; (i * i * 5) mod 219 + 37 - k; (i * 17 + 90) mod 219 + 37 - k].
Definition light_bytes : list Z := concat (map (pixel_at 0) (upto 153)).
Definition dark_bytes : list Z := concat (map (pixel_at 37) (upto 153)).
Example C63_case :
  brighter_image Rgb light_bytes dark_bytes 9 17 (-37) /\
  brightness_only (exec (run_encode debug64 60 [CSampling F_2_2] light_bytes 9 17 Rgb))
                  (exec (run_encode release32 60 [CSampling F_2_2; CScans 4; CRestart 1] dark_bytes 9 17 Rgb)) 9 17 (-37).
Proof.
  assert (G : brighter_image Rgb light_bytes dark_bytes 9 17 (-37)).
  { intros y x Hy Hx.
    pose proof (zall (fun i => (pixel_byte dark_bytes 9 3 (i / 9) (i mod 9) 0 =? pixel_byte light_bytes 9 3 (i / 9) (i mod 9) 0 + -37) &&
      (pixel_byte dark_bytes 9 3 (i / 9) (i mod 9) 1 =? pixel_byte light_bytes 9 3 (i / 9) (i mod 9) 1 + -37) &&
      (pixel_byte dark_bytes 9 3 (i / 9) (i mod 9) 2 =? pixel_byte light_bytes 9 3 (i / 9) (i mod 9) 2 + -37)) 0 153
      ltac:(vm_compute; reflexivity) (9 * y + x) ltac:(lia)) as E. cbv beta in E.
    replace ((9 * y + x) / 9) with y in E by (rewrite Z.mul_comm, Z.add_comm, Z.div_add, Z.div_small by lia; lia).
    replace ((9 * y + x) mod 9) with x in E by (rewrite Z.mul_comm, Z.add_comm, Z.mod_add, Z.mod_small by lia; lia).
    cbn [brighter_pixel spec_bpp]. lia. }
  split; [exact G|]. apply C63_brightness.
  - constructor; [repeat constructor| |discriminate]. constructor; try (vm_compute; split; discriminate); [now right| |vm_compute; discriminate].
    apply bytes_by_check. vm_compute. reflexivity.
  - discriminate.
  - constructor; [repeat (constructor; [cbn; unfold is_u16; lia|]); constructor| |discriminate]. constructor; try (vm_compute; split; discriminate); [now left| |vm_compute; discriminate].
    apply bytes_by_check. vm_compute. reflexivity.
  - discriminate.
  - apply colour_fits; try reflexivity; vm_compute; reflexivity.
  - apply colour_fits; try reflexivity; try (vm_compute; reflexivity). vm_compute. discriminate.
  - repeat split; reflexivity.
  - exact G.
Qed.
