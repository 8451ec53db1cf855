(** C65: chroma settings do not touch the luminance, luminance settings do not touch the chroma. *)
From Coq Require Import Reals Lra.
From Verif Require Import T81 SFile SEncode SHuff SAvx2 SSize SRestart SDecide SReal SGrey SLuma MAvx2 PAvx2 PAvxDct PSmall PRest PDecide PCount PMax PPlat
  ThmRound ThmQuant ThmScan ThmHuff ThmBytes ThmRestart ThmDecide ThmAvx2 ThmAll ThmLocal ThmGrey.
From Coq Require Import ZArith List Bool Lia.
Import ListNotations.
Open Scope Z_scope.

Lemma cdiv_mul_r a b : 1 <= b -> cdiv (a * b) b = a.
Proof. intros Hb. unfold cdiv. replace (a * b + b - 1) with (b - 1 + a * b) by ring. rewrite Z.div_add, Z.div_small by lia. lia. Qed.
(** A component with table 0 is at the same place in both files and has full resolution. *)
Lemma full_comp s color w h ci co : nth_error (comps_of (s_sampling s) color) ci = Some co -> co_tq co = 0 ->
  hmax (frame_for s color w h) / co_h co = 1 /\ vmax (frame_for s color w h) / co_v co = 1 /\
  blocks_high (frame_for s color w h) co = cdiv h 8 /\ blocks_wide (frame_for s color w h) co = cdiv w 8.
Proof.
  intros N T. destruct (steps_exact s color w h co (nth_error_In _ _ N)) as (Ph & Pv & Px & Py & E1 & E2).
  assert (EH : hmax (frame_for s color w h) = co_h co /\ vmax (frame_for s color w h) = co_v co).
  { clear - N T. unfold hmax, vmax, frame_for. cbn [fr_comps]. unfold comps_of in *. destruct (factors (s_sampling s)) as [fh fv] eqn:E.
    assert (1 <= fh /\ 1 <= fv) as [F1 F2] by (destruct (s_sampling s); cbn in E; inversion E; lia).
    destruct color; destruct ci as [|[|[|[|ci]]]]; try discriminate N; cbn [nth_error] in N; try (destruct ci; discriminate N);
      injection N as <-; cbn [co_tq] in T; try discriminate T; cbn [fold_right co_h co_v]; lia. }
  destruct EH as [EH EV]. unfold blocks_high, blocks_wide, comp_height, comp_width. rewrite EH, EV.
  rewrite !Z.div_same by lia. change (fr_height (frame_for s color w h)) with h. change (fr_width (frame_for s color w h)) with w.
  rewrite !cdiv_mul_r by lia. repeat split; reflexivity.
Qed.
Lemma same_place s1 s2 color ci co : nth_error (comps_of (s_sampling s1) color) ci = Some co ->
  exists co', nth_error (comps_of (s_sampling s2) color) ci = Some co' /\ co_tq co' = co_tq co.
Proof.
  unfold comps_of. destruct (factors (s_sampling s1)), (factors (s_sampling s2)).
  destruct color; destruct ci as [|[|[|[|ci]]]]; cbn [nth_error]; intros N; try discriminate N; try (destruct ci; discriminate N);
    injection N as <-; eexists; (split; [reflexivity|reflexivity]).
Qed.
Lemma luminance_core F T (HF : transform_is F T) s1 s2 color w h pl j1 j2 : s_quality s1 = s_quality s2 -> s_luma s1 = s_luma s2 ->
  decoded_with T s1 color w h pl j1 -> decoded_with T s2 color w h pl j2 -> same_luminance j1 j2 w h.
Proof.
  intros Q L A1 A2 ci co by_ bx k N Tq Hy Hx Hk. pose proof (da_frame _ _ _ _ _ _ _ A1) as J1. pose proof (da_frame _ _ _ _ _ _ _ A2) as J2.
  rewrite J1 in N. cbn [frame_for fr_comps] in N. destruct (same_place s1 s2 color ci co N) as (co' & N' & Tq'). rewrite Tq in Tq'.
  destruct (full_comp s1 color w h ci co N Tq) as (S1 & S2 & B1 & B2). destruct (full_comp s2 color w h ci co' N' Tq') as (S3 & S4 & B3 & B4).
  apply (component_core F T HF s1 s2 color color w h w h pl pl j1 j2 A1 A2 ci ci co co').
  - rewrite J1. exact N.
  - rewrite J2. exact N'.
  - rewrite (da_quant _ _ _ _ _ _ _ A1 ci co N), (da_quant _ _ _ _ _ _ _ A2 ci co' N'). rewrite Tq, Tq'. f_equal. apply map_ext. intros [v u].
    unfold quantizer. cbn [Z.eqb]. rewrite Q, L. reflexivity.
  - rewrite J1, B1. exact Hy.
  - rewrite J1, B2. exact Hx.
  - rewrite J2, B3. exact Hy.
  - rewrite J2, B4. exact Hx.
  - exact Hk.
  - intros y x _ _. rewrite J1, J2. unfold sample_at. rewrite S1, S2, S3, S4. reflexivity.
Qed.
Lemma chrominance_core F T (HF : transform_is F T) s1 s2 color w h pl j1 j2 : s_quality s1 = s_quality s2 -> s_chroma s1 = s_chroma s2 -> s_sampling s1 = s_sampling s2 ->
  decoded_with T s1 color w h pl j1 -> decoded_with T s2 color w h pl j2 -> same_chrominance j1 j2.
Proof.
  intros Q L S A1 A2 ci co by_ bx k N Tq Hy Hx Hk. pose proof (da_frame _ _ _ _ _ _ _ A1) as J1. pose proof (da_frame _ _ _ _ _ _ _ A2) as J2.
  rewrite J1 in N. cbn [frame_for fr_comps] in N.
  assert (HM : hmax (frame_for s2 color w h) = hmax (frame_for s1 color w h)) by (unfold hmax, frame_for; cbn [fr_comps]; rewrite S; reflexivity).
  assert (VM : vmax (frame_for s2 color w h) = vmax (frame_for s1 color w h)) by (unfold vmax, frame_for; cbn [fr_comps]; rewrite S; reflexivity).
  assert (N' : nth_error (comps_of (s_sampling s2) color) ci = Some co) by (rewrite <- S; exact N).
  apply (component_core F T HF s1 s2 color color w h w h pl pl j1 j2 A1 A2 ci ci co co); try assumption.
  - rewrite J1. exact N.
  - rewrite J2. exact N'.
  - rewrite (da_quant _ _ _ _ _ _ _ A1 ci co N), (da_quant _ _ _ _ _ _ _ A2 ci co N'). rewrite Tq. f_equal. apply map_ext. intros [v u].
    unfold quantizer. cbn [Z.eqb]. rewrite Q, L. reflexivity.
  - rewrite J2. rewrite J1 in Hy. unfold blocks_high, comp_height in *. rewrite VM. exact Hy.
  - rewrite J2. rewrite J1 in Hx. unfold blocks_wide, comp_width in *. rewrite HM. exact Hx.
  - intros y x _ _. rewrite J1, J2. unfold sample_at. rewrite HM, VM. reflexivity.
Qed.

(** ** C65
    Two successful calls with the same image and the same quality; everything that is not mentioned may differ. *)
Definition separate (same_l same_c : Prop) (run1 run2 : list Z * outcome unit) (w h : Z) : Prop :=
  exists b1 b2 j1 j2, run1 = (b1, Ok tt) /\ decode b1 = Some j1 /\ run2 = (b2, Ok tt) /\ decode b2 = Some j2 /\
    (same_l -> same_luminance j1 j2 w h) /\ (same_c -> same_chrominance j1 j2).
Lemma separate_core F T (HF : transform_is F T) s1 s2 color w h pl run1 run2 : s_quality s1 = s_quality s2 ->
  gives T s1 color w h pl run1 -> gives T s2 color w h pl run2 ->
  separate (s_luma s1 = s_luma s2) (s_chroma s1 = s_chroma s2 /\ s_sampling s1 = s_sampling s2) run1 run2 w h.
Proof.
  intros Q (b1 & j1 & E1 & D1 & A1) (b2 & j2 & E2 & D2 & A2). exists b1, b2, j1, j2.
  split; [exact E1|]. split; [exact D1|]. split; [exact E2|]. split; [exact D2|]. split.
  - intros L. exact (luminance_core F T HF s1 s2 color w h pl j1 j2 Q L A1 A2).
  - intros [L S]. exact (chrominance_core F T HF s1 s2 color w h pl j1 j2 Q L S A1 A2).
Qed.
Theorem C65_separate : forall P1 P2 q1 calls1 q2 calls2 data w h c,
  let s1 := settings_of q1 calls1 in let s2 := settings_of q2 calls2 in
  valid_call P1 q1 calls1 data w h c -> generated P1 q1 calls1 data w h c -> valid_call P2 q2 calls2 data w h c -> generated P2 q2 calls2 data w h c ->
  representable int_dct s1 (spec_color c) (spec_plane c data w) w h -> representable int_dct s2 (spec_color c) (spec_plane c data w) w h ->
  s_quality s1 = s_quality s2 ->
  separate (s_luma s1 = s_luma s2) (s_chroma s1 = s_chroma s2 /\ s_sampling s1 = s_sampling s2)
    (exec (run_encode P1 q1 calls1 data w h c)) (exec (run_encode P2 q2 calls2 data w h c)) w h.
Proof.
  intros P1 P2 q1 calls1 q2 calls2 data w h c s1 s2 [C1 V1 F1] Gn1 [C2 V2 F2] Gn2 R1 R2 Q.
  apply (C46_decodes_iff P1 q1 calls1 data w h c C1 V1 F1 Gn1) in R1. apply (C46_decodes_iff P2 q2 calls2 data w h c C2 V2 F2 Gn2) in R2.
  exact (separate_core _ _ fdct_is_int_dct s1 s2 _ _ _ _ _ _ Q R1 R2).
Qed.
Theorem C65_separate_simd : forall P1 P2 q1 calls1 q2 calls2 data w h c,
  let s1 := settings_of q1 calls1 in let s2 := settings_of q2 calls2 in
  valid_call P1 q1 calls1 data w h c -> generated_simd P1 q1 calls1 data w h c -> valid_call P2 q2 calls2 data w h c -> generated_simd P2 q2 calls2 data w h c ->
  representable avx2_dct s1 (spec_color c) (spec_plane c data w) w h -> representable avx2_dct s2 (spec_color c) (spec_plane c data w) w h ->
  s_quality s1 = s_quality s2 ->
  separate (s_luma s1 = s_luma s2) (s_chroma s1 = s_chroma s2 /\ s_sampling s1 = s_sampling s2)
    (exec (run_encode_avx2 P1 q1 calls1 data w h c)) (exec (run_encode_avx2 P2 q2 calls2 data w h c)) w h.
Proof.
  intros P1 P2 q1 calls1 q2 calls2 data w h c s1 s2 [C1 V1 F1] Gn1 [C2 V2 F2] Gn2 R1 R2 Q.
  apply (C46_decodes_iff_simd P1 q1 calls1 data w h c C1 V1 F1 Gn1) in R1. apply (C46_decodes_iff_simd P2 q2 calls2 data w h c C2 V2 F2 Gn2) in R2.
  exact (separate_core _ _ avx2_is_dct s1 s2 _ _ _ _ _ _ Q R1 R2).
Qed.
Theorem C65_separate_image : forall P q1 calls1 q2 calls2 im pl,
  let s1 := settings_of q1 calls1 in let s2 := settings_of q2 calls2 in
  let color := im_color im in let w := im_width im in let h := im_height im in
  Forall call_wf calls1 -> Forall call_wf calls2 -> valid_buffer P im pl ->
  (s_optimize s1 = true -> countable s1 color w h) -> tables_generated s1 color w h (run_encode_image P q1 calls1 im) ->
  (s_optimize s2 = true -> countable s2 color w h) -> tables_generated s2 color w h (run_encode_image P q2 calls2 im) ->
  representable int_dct s1 color pl w h -> representable int_dct s2 color pl w h -> s_quality s1 = s_quality s2 ->
  separate (s_luma s1 = s_luma s2) (s_chroma s1 = s_chroma s2 /\ s_sampling s1 = s_sampling s2)
    (exec (run_encode_image P q1 calls1 im)) (exec (run_encode_image P q2 calls2 im)) w h.
Proof.
  intros P q1 calls1 q2 calls2 im pl s1 s2 color w h C1 C2 V F1 Gn1 F2 Gn2 R1 R2 Q.
  apply (C46_decodes_iff_image P q1 calls1 im pl C1 V F1 Gn1) in R1. apply (C46_decodes_iff_image P q2 calls2 im pl C2 V F2 Gn2) in R2.
  exact (separate_core _ _ fdct_is_int_dct s1 s2 _ _ _ _ _ _ Q R1 R2).
Qed.

(** ** A concrete case: full and quarter chroma resolution, other chroma table; the luminance is the same. *)
Example C65_case : exists b1 b2 j1 j2,
  exec (run_encode debug64 60 [CSampling F_1_1] rgba_bytes 9 17 Rgba) = (b1, Ok tt) /\ decode b1 = Some j1 /\
  exec (run_encode release32 60 [CSampling F_2_2; CQuant QDefault QFlat; CScans 4] rgba_bytes 9 17 Rgba) = (b2, Ok tt) /\ decode b2 = Some j2 /\
  same_luminance j1 j2 9 17.
Proof.
  destruct (C65_separate debug64 release32 60 [CSampling F_1_1] 60 [CSampling F_2_2; CQuant QDefault QFlat; CScans 4] rgba_bytes 9 17 Rgba) as (b1 & b2 & j1 & j2 & E1 & D1 & E2 & D2 & L & _).
  - constructor; [repeat constructor| |discriminate]. constructor; try (vm_compute; split; discriminate); [now right| |vm_compute; discriminate].
    apply bytes_by_check. vm_compute. reflexivity.
  - discriminate.
  - constructor; [repeat (constructor; [cbn; unfold is_u16; auto; lia|]); constructor| |discriminate]. constructor; try (vm_compute; split; discriminate); [now left| |vm_compute; discriminate].
    apply bytes_by_check. vm_compute. reflexivity.
  - discriminate.
  - apply colour_fits; try reflexivity; vm_compute; reflexivity.
  - apply colour_fits; try reflexivity; try (vm_compute; reflexivity). vm_compute. discriminate.
  - reflexivity.
  - exists b1, b2, j1, j2. split; [exact E1|]. split; [exact D1|]. split; [exact E2|]. split; [exact D2|]. apply L. reflexivity.
Qed.
